(** * Proofs about double precision: how far adjusted counts are from exact arithmetic. *)

From Coq Require Import Reals ZArith List Bool Lia Lra Permutation.
From Flocq Require Import Core BinarySingleNaN.
From Verif Require Import Num L_Num Spec M_Baselines L_Baselines M_Float Spec_Float L_Float L_Float2 L_Float3 L_Float4 M_Float2 L_Float5 L_Float6.
Import ListNotations.
Open Scope R_scope.

Lemma clip_nearest x : Rabs (clip01 (nearest x) - clip01 x) <= bpow radix2 (-54).
Proof.
  pose proof (bpow_gt_0 radix2 (-54)). destruct (Rle_dec x 0) as [A|A].
  - rewrite (clip01_low x A), clip01_low by (apply nearest_le_format; [apply format_0|exact A]). rewrite Rminus_0_r, Rabs_R0. lra.
  - destruct (Rle_dec 1 x) as [B|B].
    + rewrite (clip01_high x B), clip01_high by (apply nearest_ge_format; [apply format_1|exact B]). unfold Rminus. rewrite Rplus_opp_r, Rabs_R0. lra.
    + apply Rle_trans with (1 := clip01_lip _ _). apply nearest_error_unit. rewrite Rabs_pos_eq; lra.
Qed.

(** A quotient with a denominator above 1/1000. *)
Lemma quotient_close e n d n0 d0 : 0 < e -> Rabs (n - n0) <= 3 * e -> Rabs (d - d0) <= 3 * e -> 1/1000 + 8 * e < Rabs d0 ->
  Rabs (clip01 (n / d) - clip01 (n0 / d0)) <= 9000 * e.
Proof.
  intros E Hn Hd H0. assert (D0 : d0 <> 0) by (intros Z; rewrite Z, Rabs_R0 in H0; lra).
  assert (D1 : 1/1000 + 5 * e < Rabs d) by (apply Rabs_le_inv in Hd; revert H0; unfold Rabs; destruct (Rcase_abs d0), (Rcase_abs d); lra).
  assert (Dn : d <> 0) by (intros Z; rewrite Z, Rabs_R0 in D1; lra).
  set (q := n0 / d0). assert (Q : n0 = q * d0) by (unfold q; field; exact D0).
  destruct (Rle_dec (Rabs q) 2) as [B|B].
  - apply Rle_trans with (1 := clip01_lip _ _).
    replace (n / d - q) with (((n - n0) + q * (d0 - d)) * / d) by (rewrite Q; field; exact Dn).
    rewrite Rabs_mult, Rabs_inv. apply Rmult_le_reg_r with (Rabs d); [lra|]. rewrite Rmult_assoc, Rinv_l, Rmult_1_r by lra.
    apply Rle_trans with (1 := Rabs_triang _ _). rewrite Rabs_mult, (Rabs_minus_sym d0).
    assert (Rabs q * Rabs (d - d0) <= 2 * (3 * e)) by (apply Rmult_le_compat; try apply Rabs_pos; assumption).
    assert (9000 * e * (1/1000) <= 9000 * e * Rabs d) by (apply Rmult_le_compat_l; lra). lra.
  - assert (G : (2 < q /\ 1 <= n / d) \/ (q < -2 /\ n / d <= 0)).
    { assert (M : Rabs n0 = Rabs q * Rabs d0) by (rewrite Q, Rabs_mult; reflexivity).
      assert (M2 : 2 * Rabs d0 <= Rabs n0) by (rewrite M; apply Rmult_le_compat_r; [apply Rabs_pos|lra]).
      assert (Dabs : Rabs d <= Rabs d0 + 3 * e) by (apply Rabs_le_inv in Hd; unfold Rabs in *; destruct (Rcase_abs d0), (Rcase_abs d); lra).
      destruct (Rle_dec 0 q) as [P|P].
      - left. rewrite Rabs_pos_eq in B by exact P. split; [lra|].
        destruct (Rle_dec 0 d0) as [S|S].
        + rewrite Rabs_pos_eq in * by exact S. rewrite (Rabs_pos_eq q) in M by exact P.
          assert (2 * d0 <= n0) by (rewrite Q; apply Rmult_le_compat_r; lra).
          apply Rabs_le_inv in Hn, Hd. assert (0 < d) by lra. apply Rmult_le_reg_r with d; [lra|]. unfold Rdiv. rewrite Rmult_assoc, Rinv_l by lra. lra.
        + rewrite (Rabs_left d0) in * by lra. assert (n0 <= 2 * d0) by (rewrite Q; nra).
          apply Rabs_le_inv in Hn, Hd. assert (d < 0) by lra.
          replace (n / d) with ((- n) / (- d)) by (field; lra). apply Rmult_le_reg_r with (- d); [lra|]. unfold Rdiv. rewrite Rmult_assoc, Rinv_l by lra. lra.
      - right. rewrite Rabs_left in B by lra. split; [lra|].
        destruct (Rle_dec 0 d0) as [S|S].
        + rewrite Rabs_pos_eq in * by exact S. assert (n0 <= - 2 * d0) by (rewrite Q; nra).
          apply Rabs_le_inv in Hn, Hd. assert (0 < d) by lra. apply Rmult_le_reg_r with d; [lra|]. unfold Rdiv. rewrite Rmult_assoc, Rinv_l by lra. lra.
        + rewrite (Rabs_left d0) in * by lra. assert (- 2 * d0 <= n0) by (rewrite Q; nra).
          apply Rabs_le_inv in Hn, Hd. assert (d < 0) by lra.
          replace (n / d) with ((- n) / (- d)) by (field; lra). apply Rmult_le_reg_r with (- d); [lra|]. unfold Rdiv. rewrite Rmult_assoc, Rinv_l by lra. lra. }
    destruct G as [(A1 & A2)|(A1 & A2)].
    + rewrite !clip01_high by lra. unfold Rminus. rewrite Rplus_opp_r, Rabs_R0. lra.
    + rewrite !clip01_low by lra. unfold Rminus. rewrite Rplus_opp_r, Rabs_R0. lra.
Qed.

Lemma complementary_close x y : complementary x y -> Rabs (val x + val y - 1) <= 4 * bpow radix2 (-54).
Proof.
  intros ((Fx & Bx) & (Fy & By) & S). destruct (fadd_ok x y Fx Fy) as (_ & V); [apply big4, Rabs_le; lra|]. rewrite S in V.
  destruct (add_error x y) as (d & Hd & Ed). rewrite <- V in Ed.
  replace (val x + val y - 1) with (- ((val x + val y) * d)) by lra. rewrite Rabs_Ropp, Rabs_mult.
  assert (B2 : ulp1 = 2 * bpow radix2 (-54)). { unfold ulp1. change (-53)%Z with (1 + -54)%Z. rewrite bpow_plus. reflexivity. }
  replace (4 * bpow radix2 (-54)) with (2 * ulp1) by (rewrite B2; ring).
  apply Rmult_le_compat; try apply Rabs_pos; [rewrite Rabs_pos_eq; lra|exact Hd].
Qed.

Lemma sub_close e x y X Y : bpow radix2 (-54) <= e -> in_unit x -> in_unit y -> Rabs (val x - X) <= e -> Rabs (val y - Y) <= e ->
  finite (fsub x y) /\ val (fsub x y) = nearest (val x - val y) /\ Rabs (val (fsub x y) - (X - Y)) <= 3 * e.
Proof.
  intros E Ux Uy Hx Hy. destruct (sub_unit x y Ux Uy) as (F & V). split; [exact F|]. split; [exact V|]. rewrite V.
  destruct Ux as (_ & Bx), Uy as (_ & By). pose proof (nearest_error_unit (val x - val y) ltac:(apply Rabs_le; lra)) as N.
  apply Rabs_le_inv in N, Hx, Hy. apply Rabs_le. lra.
Qed.

Lemma f_001_close : Rabs (val f_001 - 1/1000) <= bpow radix2 (-54).
Proof.
  unfold f_001. destruct f1_ok as (F1 & V1). destruct (of_Z_ok 1000 ltac:(lia)) as (Fk & Vk).
  destruct (fdiv_ok f1 (of_Z 1000) F1) as (_ & V); [rewrite Vk; apply Rgt_not_eq, IZR_lt; reflexivity|rewrite V1, Vk; apply big4, Rabs_le; lra|].
  rewrite V, V1, Vk. apply nearest_error_unit. apply Rabs_le. lra.
Qed.

(** Dividing by the sum. *)
Lemma normalise_close np_sum e a b A B : adds_in_some_order np_sum -> bpow radix2 (-54) <= e -> e <= 1/1000 -> in_unit a -> in_unit b ->
  Rabs (val a - A) <= e -> Rabs (val b - B) <= e -> 0 <= A <= 1 -> 0 <= B <= 1 -> 3/4 <= A + B ->
  exists x y, normalise_float np_sum [a; b] = [x; y] /\ Rabs (val x - A / (A + B)) <= 16 * e /\ Rabs (val y - B / (A + B)) <= 16 * e.
Proof.
  intros Sm E1 E2 Ua Ub Ha Hb BA BB S1. destruct (sum_two np_sum a b Sm Ua Ub) as (F & V).
  pose proof Ua as (Fa & Ba). pose proof Ub as (Fb & Bb).
  assert (SS : Rabs (val (np_sum [a; b]) - (A + B)) <= 6 * e /\ val a <= val (np_sum [a; b]) /\ val b <= val (np_sum [a; b])).
  { destruct (add_error a b) as (d & Hd & Ed). rewrite V. split; [|split; apply nearest_ge_format; try apply format_val; lra].
    rewrite Ed. assert (B2 : ulp1 = 2 * bpow radix2 (-54)). { unfold ulp1. change (-53)%Z with (1 + -54)%Z. rewrite bpow_plus. reflexivity. }
    replace ((val a + val b) * (1 + d) - (A + B)) with ((val a + val b - (A + B)) + (val a + val b) * d) by ring.
    apply Rle_trans with (1 := Rabs_triang _ _). rewrite Rabs_mult, (Rabs_pos_eq (val a + val b)) by lra.
    assert ((val a + val b) * Rabs d <= 2 * (2 * e)) by (apply Rmult_le_compat; [lra|apply Rabs_pos|lra|lra]).
    assert (Rabs (val a + val b - (A + B)) <= 2 * e) by (apply Rabs_le_inv in Ha, Hb; apply Rabs_le; lra). lra. }
  destruct SS as (SS & Sa & Sb). pose proof SS as SS'. apply Rabs_le_inv in SS'. set (s := val (np_sum [a; b])) in *.
  assert (P : 7/10 < s) by lra. destruct f0_ok as (F0 & V0).
  unfold normalise_float. replace (flt f0 (np_sum [a; b])) with true by (symmetry; apply flt_ok; [assumption..|rewrite V0; fold s; lra]).
  cbn [map]. do 2 eexists. split; [reflexivity|].
  assert (G : forall z Z, in_unit z -> val z <= s -> Rabs (val z - Z) <= e -> 0 <= Z <= A + B -> Rabs (val (fdiv z (np_sum [a; b])) - Z / (A + B)) <= 16 * e).
  { intros z Z (Fz & Bz) Hz HZ BZ. destruct (fdiv_le z (np_sum [a; b]) Fz F) as (_ & D); [fold s; lra|fold s; lra|]. fold s in D.
    assert (Q : Rabs (val z / s - Z / (A + B)) <= 10 * e).
    { replace (val z / s - Z / (A + B)) with (((val z - Z) + Z / (A + B) * ((A + B) - s)) * / s) by (field; lra).
      assert (R1 : 0 <= Z / (A + B) <= 1).
      { split; [apply Rdiv_le_0_compat; lra|]. apply Rmult_le_reg_r with (A + B); [lra|]. unfold Rdiv. rewrite Rmult_assoc, Rinv_l by lra. lra. }
      rewrite Rabs_mult, Rabs_inv, (Rabs_pos_eq s) by lra. apply Rmult_le_reg_r with s; [lra|]. rewrite Rmult_assoc, Rinv_l, Rmult_1_r by lra.
      apply Rle_trans with (1 := Rabs_triang _ _). rewrite Rabs_mult, (Rabs_pos_eq (Z / (A + B))), (Rabs_minus_sym (A + B)) by lra.
      assert (Z / (A + B) * Rabs (s - (A + B)) <= 1 * (6 * e)) by (apply Rmult_le_compat; [lra|apply Rabs_pos|lra|exact SS]).
      assert (10 * e * (7/10) <= 10 * e * s) by (apply Rmult_le_compat_l; lra). lra. }
    apply Rabs_le_inv in D, Q. apply Rabs_le. lra. }
  split; apply G; try assumption; lra.
Qed.

(** What the double [x] is, given the exact rate ([None] for NaN). *)
Definition approximates (e : R) (x : float) (o : option (list R)) : Prop :=
  match o with
  | None => is_nan x = true
  | Some r => in_unit x /\ Rabs (val x - nth 1 r 0) <= e
  end.

Lemma adjust_close np_sum e fpr tpr a b o0 o1 A B : adds_in_some_order np_sum -> bpow radix2 (-54) <= e -> e <= 1/1000 ->
  approximates e fpr o0 -> approximates e tpr o1 -> in_unit a -> in_unit b ->
  Rabs (val a - A) <= e -> Rabs (val b - B) <= e -> 0 <= A <= 1 -> 0 <= B <= 1 -> 3/4 <= A + B ->
  (forall r0 r1, o0 = Some r0 -> o1 = Some r1 -> 8 * e < Rabs (Rabs (nth 1 r1 0 - nth 1 r0 0) - 1/1000)) ->
  within (16384 * e) (binary_float_adjust np_sum fpr tpr [a; b]) (binary_adjust [o0; o1] [A; B]).
Proof.
  intros Sm E1 E2 H0 H1 Ua Ub Ha Hb BA BB S1 Gap. pose proof (bpow_gt_0 radix2 (-54)) as P54. destruct f_001_ok as (F001 & _). pose proof f_001_close as C001.
  assert (Unc : flt f_001 (fabs (fsub tpr fpr)) = false -> ~ informative [o0; o1] ->
    within (16384 * e) (binary_float_adjust np_sum fpr tpr [a; b]) (binary_adjust [o0; o1] [A; B])).
  { intros Q NI. rewrite binary_adjust_uninformative by exact NI. unfold binary_float_adjust. rewrite Q. cbn [map].
    rewrite !fclip_unit by assumption. rewrite !clip01_id by assumption. cbv zeta.
    assert (RS : rsum [A; B] = A + B) by (cbn; lra). rewrite RS. destruct (Rlt_dec 0 (A + B)) as [_|N]; [|lra].
    unfold vdiv. cbn [map]. destruct (normalise_close np_sum e a b A B Sm E1 E2 Ua Ub Ha Hb BA BB S1) as (x & y & -> & X & Y).
    constructor; [lra|]. constructor; [lra|constructor]. }
  destruct o0 as [r0|].
  2:{ apply Unc; [|intros (x & y & t & Eq & _); discriminate]. apply nan_lt. cbn in H0.
      assert (K : is_nan (fsub tpr fpr) = true) by (apply nan_sub_r, H0). unfold fabs; rewrite is_nan_Babs; exact K. }
  destruct o1 as [r1|].
  2:{ apply Unc; [|intros (x & y & t & Eq & _); discriminate]. apply nan_lt. cbn in H1.
      assert (K : is_nan (fsub tpr fpr) = true) by (apply nan_sub_l, H1). unfold fabs; rewrite is_nan_Babs; exact K. }
  specialize (Gap r0 r1 eq_refl eq_refl). destruct H0 as (Uf & Hf). destruct H1 as (Ut & Ht).
  set (f := nth 1 r0 0) in *. set (t := nth 1 r1 0) in *.
  destruct (sub_close e tpr fpr t f E1 Ut Uf Ht Hf) as (Fd & Vd & Cd). destruct (fabs_ok _ Fd) as (Fa & Va).
  assert (CA : Rabs (Rabs (val (fsub tpr fpr)) - Rabs (t - f)) <= 3 * e).
  { apply Rle_trans with (2 := Cd). apply Rabs_triang_inv2. }
  apply Rabs_le_inv in C001.
  destruct (Rlt_dec (1/1000) (Rabs (t - f))) as [I|I].
  - assert (Gap' : 1/1000 + 8 * e < Rabs (t - f)) by (rewrite (Rabs_pos_eq (Rabs (t - f) - 1/1000)) in Gap by lra; lra).
    assert (Q : flt f_001 (fabs (fsub tpr fpr)) = true).
    { apply flt_ok; [exact F001|exact Fa|]. rewrite Va. apply Rabs_le_inv in CA. lra. }
    destruct (adjust_value np_sum fpr tpr a b Sm Uf Ut Ub Q) as (x & y & -> & C & V).
    rewrite binary_adjust_informative by exact I. cbn [nth map]. fold f t.
    destruct (sub_close e b fpr B f E1 Ub Uf Hb Hf) as (_ & Vn & Cn).
    rewrite <- Vn, <- Vd in V.
    assert (Y : Rabs (val y - clip01 ((B - f) / (t - f))) <= 9001 * e).
    { rewrite V. pose proof (clip_nearest (val (fsub b fpr) / val (fsub tpr fpr))) as N.
      pose proof (quotient_close e _ _ _ _ ltac:(lra) Cn Cd Gap') as M.
      apply Rabs_le_inv in N, M. apply Rabs_le. lra. }
    pose proof (complementary_close x y C) as X. pose proof (clip01_compl ((B - f) / (t - f))) as K.
    constructor; [|constructor; [lra|constructor]]. apply Rabs_le_inv in X, Y. apply Rabs_le. lra.
  - assert (Gap' : Rabs (t - f) < 1/1000 - 8 * e) by (rewrite (Rabs_left1 (Rabs (t - f) - 1/1000)) in Gap by lra; lra).
    apply Unc.
    + apply flt_false; [exact F001|exact Fa|]. rewrite Va. apply Rabs_le_inv in CA. lra.
    + intros (x & y & l & Eq & H). injection Eq as <- <- <-. fold f t in H. lra.
Qed.

(** ** AC *)

Lemma cm_float_approximates c0 c1 y p c : c0 <> c1 -> small (length y) ->
  approximates (bpow radix2 (-54)) (cm_float [c0; c1] y p c c1) (norm_row [INR (pair_count c c0 y p); INR (pair_count c c1 y p)]).
Proof.
  intros D N. unfold cm_float, norm_row. cbn [map list_sum fold_right]. unfold list_sum. cbn [map fold_right].
  pose proof (pair_count_two c c0 c1 y p D) as M. set (k0 := pair_count c c0 y p) in *. set (k := pair_count c c1 y p) in *.
  assert (RS : rsum [INR k0; INR k] = INR (k0 + k)) by (cbn; rewrite plus_INR; lra). rewrite RS. rewrite Nat.add_0_r.
  destruct (Req_EM_T (INR (k0 + k)) 0) as [Z|Z].
  - apply (INR_eq _ 0) in Z. cbn. replace k with 0%nat by lia. replace k0 with 0%nat by lia. apply zero_div.
  - assert (P : (0 < k0 + k)%nat) by (destruct (k0 + k)%nat; [exfalso; apply Z; reflexivity|lia]).
    destruct (frac_val k (k0 + k)) as (U & V); [lia|exact P|apply small_le with (length y); [lia|exact N]|].
    cbn. split; [exact U|]. rewrite V. apply frac_error; [lia|exact P].
Qed.

Lemma fraction_two c0 c1 preds : c0 <> c1 -> (forall z, In z preds -> z = c0 \/ z = c1) -> preds <> [] ->
  INR (zcount c0 preds) / INR (length preds) + INR (zcount c1 preds) / INR (length preds) = 1.
Proof.
  intros D H E. rewrite (zcount_two c0 c1 preds D H). rewrite minus_INR by apply zcount_le. field.
  apply not_0_INR. destruct preds; [congruence|discriminate].
Qed.

Lemma AC_float_close np_sum solv dist c0 c1 y preds_train preds cm : adds_in_some_order np_sum ->
  np_unique y = [c0; c1] -> AC_fit y preds_train = Val cm ->
  small (length preds_train) -> small (length preds) -> preds <> [] -> (forall z, In z preds -> z = c0 \/ z = c1) ->
  (forall r0 r1, cm = [Some r0; Some r1] -> bpow radix2 (-51) < Rabs (Rabs (nth 1 r1 0 - nth 1 r0 0) - 1/1000)) ->
  exists p, AC_predict solv dist [c0; c1] cm preds = Val p /\
    within (bpow radix2 (-40)) (AC_float np_sum c0 c1 (y_ext y (length preds_train)) preds_train preds) p.
Proof.
  intros Sm U Fit N M Ne K Gap.
  assert (D : c0 <> c1). { pose proof (np_unique_NoDup y) as ND. rewrite U in ND. inversion ND as [|? ? NI _]; subst. cbn in NI. intuition. }
  unfold AC_fit in Fit. rewrite U in Fit. set (ye := y_ext y (length preds_train)) in *.
  destruct (Nat.eqb_spec (length ye) (length preds_train)) as [Le|]; [|discriminate]. injection Fit as <-.
  set (A := INR (zcount c0 preds) / INR (length preds)). set (B := INR (zcount c1 preds) / INR (length preds)).
  assert (CF : class_frequencies [c0; c1] preds = Val [A; B]) by (unfold class_frequencies; destruct preds; [congruence|reflexivity]).
  unfold AC_predict. rewrite CF. cbn [obind length Nat.eqb]. eexists. split; [reflexivity|].
  assert (Lp : (0 < length preds)%nat) by (destruct preds; [congruence|cbn; lia]).
  destruct (frac_val (zcount c0 preds) (length preds) (zcount_le _ _) Lp M) as (Ua & Va).
  destruct (frac_val (zcount c1 preds) (length preds) (zcount_le _ _) Lp M) as (Ub & Vb).
  assert (B40 : bpow radix2 (-40) = 16384 * bpow radix2 (-54)) by (change (-40)%Z with (14 + -54)%Z; rewrite bpow_plus; reflexivity).
  assert (B51 : bpow radix2 (-51) = 8 * bpow radix2 (-54)) by (change (-51)%Z with (3 + -54)%Z; rewrite bpow_plus; reflexivity).
  rewrite B40. unfold AC_float, CC_float. cbn [map confusion] in Gap |- *.
  apply adjust_close.
  - exact Sm.
  - lra.
  - apply Rle_trans with (bpow radix2 (-10)); [apply bpow_le; lia|cbn; lra].
  - apply cm_float_approximates; [exact D|rewrite Le; exact N].
  - apply cm_float_approximates; [exact D|rewrite Le; exact N].
  - exact Ua.
  - exact Ub.
  - rewrite Va. apply frac_error; [apply zcount_le|exact Lp].
  - rewrite Vb. apply frac_error; [apply zcount_le|exact Lp].
  - apply frac_range; [apply zcount_le|exact Lp].
  - apply frac_range; [apply zcount_le|exact Lp].
  - unfold A, B. rewrite (fraction_two c0 c1 preds D K Ne). lra.
  - intros r0 r1 E0 E1. rewrite <- B51. apply Gap. rewrite <- E0, <- E1. reflexivity.
Qed.

(** ** PAC *)

Lemma fcol_val j rows : map val (fcol j rows) = col j (map (map val) rows).
Proof.
  unfold fcol, col. rewrite !map_map. apply map_ext. intros r. destruct f0_ok as (_ & V). rewrite <- V. symmetry. apply map_nth.
Qed.

Lemma exact_mean_rmean l : exact_mean l = rmean (map val l).
Proof.
  unfold exact_mean, exact_sum, rmean. rewrite map_length. reflexivity.
Qed.

Lemma select_map {A B : Type} (f : A -> B) c y : forall rows, select c y (map f rows) = map f (select c y rows).
Proof.
  unfold select. induction y as [|z y IH]; intros [|r rows]; try reflexivity. cbn. destruct (Z.eqb z c); cbn; rewrite IH; reflexivity.
Qed.

Lemma rmean_unit l : l <> [] -> Forall (fun x => 0 <= x <= 1) l -> 0 <= rmean l <= 1.
Proof.
  intros Ne U. unfold rmean. assert (P : 0 < INR (length l)) by (apply lt_0_INR; destruct l; [congruence|cbn; lia]).
  assert (S : 0 <= rsum l <= INR (length l)).
  { clear Ne P. induction U as [|x t Ux Ut IH]; [cbn; lra|]. change (length (x :: t)) with (S (length t)). rewrite S_INR. cbn [rsum]. lra. }
  split; [apply Rdiv_le_0_compat; lra|]. apply Rmult_le_reg_r with (1 := P). unfold Rdiv. rewrite Rmult_assoc, Rinv_l by lra. lra.
Qed.

Lemma mean_close np_sum j rows n : adds_in_some_order np_sum -> rows <> [] -> Forall (Forall in_unit) rows -> (length rows <= n)%nat -> (Z.of_nat n <= 2 ^ 40)%Z ->
  in_unit (fmean np_sum (fcol j rows)) /\ Rabs (val (fmean np_sum (fcol j rows)) - rmean (col j (map (map val) rows))) <= INR (n + 1) * bpow radix2 (-52).
Proof.
  intros Sm Ne U L N. pose proof (fcol_unit j rows U) as Uc. pose proof (fcol_length j rows) as Lc.
  assert (Nc : fcol j rows <> []) by (destruct rows; [congruence|discriminate]).
  split; [apply fmean_unit; [exact Sm|exact Nc|exact Uc|unfold small; rewrite Lc; lia]|].
  pose proof (fmean_error np_sum (fcol j rows) Sm Nc Uc ltac:(rewrite Lc; lia)) as E. rewrite exact_mean_rmean, fcol_val, Lc in E.
  apply Rle_trans with (1 := E). apply Rmult_le_compat_r; [apply bpow_ge_0|apply le_INR; lia].
Qed.

Lemma mean_none np_sum : adds_in_some_order np_sum -> is_nan (fmean np_sum []) = true.
Proof.
  intros A. unfold fmean. cbn [map length]. destruct (summed_range _ _ (A []) (Forall_nil _)) as (F & B); [unfold small; cbn; lia|].
  destruct (summed_few _ _ (A []) (Forall_nil _)) as (Z & _); [unfold small; cbn; lia|]. specialize (Z eq_refl).
  unfold val in Z. destruct (np_sum []) as [s|s| |s m e Bd]; try discriminate F.
  - destruct s; vm_compute; reflexivity.
  - exfalso. unfold B2R in Z. destruct s; revert Z; [apply Rlt_not_eq, F2R_lt_0; cbn; lia|apply Rgt_not_eq, F2R_gt_0; cbn; lia].
Qed.

Lemma class_mean_approximates np_sum c y rows n : adds_in_some_order np_sum -> Forall (Forall in_unit) rows -> (length rows <= n)%nat -> (Z.of_nat n <= 2 ^ 40)%Z ->
  approximates (INR (n + 1) * bpow radix2 (-52)) (fmean np_sum (fcol 1 (select c y rows))) (class_mean 2 c y (map (map val) rows)).
Proof.
  intros Sm U L N. unfold class_mean. rewrite select_map. pose proof (select_incl c y rows) as I. pose proof (select_length c y rows) as SL.
  set (sel := select c y rows) in *. assert (D : sel = [] \/ sel <> []) by (destruct sel; [left; reflexivity|right; discriminate]).
  destruct D as [->|D]; [cbn; apply mean_none, Sm|].
  destruct (mean_close np_sum 1 sel n Sm D) as (A & B); [apply (incl_Forall I), U|lia|exact N|].
  destruct sel as [|r t] eqn:E; [congruence|]. split; [exact A|]. exact B.
Qed.

Lemma PAC_float_close np_sum solv dist c0 c1 y preds_train preds cm n : adds_in_some_order np_sum ->
  np_unique y = [c0; c1] -> PAC_fit y (map (map val) preds_train) = Val cm ->
  Forall (Forall in_unit) preds_train -> Forall (Forall in_unit) preds -> preds <> [] ->
  (length preds_train <= n)%nat -> (length preds <= n)%nat -> (Z.of_nat n <= 2 ^ 40)%Z ->
  Forall (fun r => 3/4 <= val (nth 0 r f0) + val (nth 1 r f0)) preds ->
  (forall r0 r1, cm = [Some r0; Some r1] -> INR (n + 1) * bpow radix2 (-49) < Rabs (Rabs (nth 1 r1 0 - nth 1 r0 0) - 1/1000)) ->
  exists p, PAC_predict solv dist [c0; c1] cm (map (map val) preds) = Val p /\
    within (INR (n + 1) * bpow radix2 (-38)) (PAC_float np_sum c0 c1 (y_ext y (length preds_train)) preds_train preds) p.
Proof.
  intros Sm U Fit U1 U2 Ne L1 L2 N S34 Gap.
  unfold PAC_fit in Fit. rewrite U, map_length in Fit. set (ye := y_ext y (length preds_train)) in *.
  destruct (Nat.eqb_spec (length ye) (length preds_train)) as [Le|]; [|discriminate]. injection Fit as <-.
  set (A := rmean (col 0 (map (map val) preds))). set (B := rmean (col 1 (map (map val) preds))).
  assert (CF : mean_rows 2 (map (map val) preds) = Val [A; B]) by (unfold mean_rows; destruct preds; [congruence|reflexivity]).
  unfold PAC_predict. cbn [length]. rewrite CF. cbn [obind Nat.eqb]. eexists. split; [reflexivity|].
  destruct (mean_close np_sum 0 preds n Sm Ne U2 L2 N) as (Ua & Ha). destruct (mean_close np_sum 1 preds n Sm Ne U2 L2 N) as (Ub & Hb).
  fold A in Ha. fold B in Hb. set (e := INR (n + 1) * bpow radix2 (-52)) in *.
  assert (B40 : bpow radix2 (-38) = 16384 * bpow radix2 (-52)) by (change (-38)%Z with (14 + -52)%Z; rewrite bpow_plus; reflexivity).
  assert (B51 : bpow radix2 (-49) = 8 * bpow radix2 (-52)) by (change (-49)%Z with (3 + -52)%Z; rewrite bpow_plus; reflexivity).
  replace (INR (n + 1) * bpow radix2 (-38)) with (16384 * e) by (unfold e; rewrite B40; ring).
  assert (N1 : 1 <= INR (n + 1)) by (change 1 with (INR 1); apply le_INR; lia).
  assert (Cv : forall j, Forall (fun x => 0 <= x <= 1) (col j (map (map val) preds))).
  { intros j. rewrite <- fcol_val. apply units_val, fcol_unit, U2. }
  assert (Cn : forall j, col j (map (map val) preds) <> []) by (intros j; destruct preds; [congruence|discriminate]).
  unfold PAC_float, PCC_float. cbn [map seq] in Gap |- *.
  apply adjust_close.
  - exact Sm.
  - unfold e. apply Rle_trans with (1 * bpow radix2 (-52)); [rewrite Rmult_1_l; apply bpow_le; lia|]. apply Rmult_le_compat_r; [apply bpow_ge_0|exact N1].
  - unfold e. apply Rle_trans with (bpow radix2 41 * bpow radix2 (-52)).
    + apply Rmult_le_compat_r; [apply bpow_ge_0|]. rewrite INR_IZR_INZ. change (bpow radix2 41) with (IZR (2 ^ 41)). apply IZR_le. lia.
    + rewrite <- bpow_plus. cbn. lra.
  - apply class_mean_approximates; assumption.
  - apply class_mean_approximates; assumption.
  - exact Ua.
  - exact Ub.
  - exact Ha.
  - exact Hb.
  - apply rmean_unit; [apply Cn|apply Cv].
  - apply rmean_unit; [apply Cn|apply Cv].
  - unfold A, B, rmean, col. rewrite !map_length. rewrite <- Rdiv_plus_distr.
    assert (P : 0 < INR (length preds)) by (apply lt_0_INR; destruct preds; [congruence|cbn; lia]).
    apply Rmult_le_reg_r with (1 := P). unfold Rdiv at 2. rewrite (Rmult_assoc _ (/ _)), Rinv_l, Rmult_1_r by lra.
    clear - S34. destruct f0_ok as (_ & V0). induction S34 as [|r t Hr Ht IH]; [cbn; lra|].
    change (length (r :: t)) with (S (length t)). rewrite S_INR. cbn [map rsum].
    assert (K : forall j, nth j (map val r) 0 = val (nth j r f0)) by (intros j; rewrite <- V0; apply map_nth). rewrite !K. lra.
  - intros r0 r1 E0 E1. replace (8 * e) with (INR (n + 1) * bpow radix2 (-49)) by (unfold e; rewrite B51; ring). apply Gap. rewrite <- E0, <- E1. reflexivity.
Qed.
