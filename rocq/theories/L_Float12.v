(** * EM in double precision: every round is close to a round of exact arithmetic. *)

From Coq Require Import Reals ZArith List Permutation Lia Lra Bool Psatz.
From Flocq Require Import Core BinarySingleNaN Relative Plus_error.
From Verif Require Import Num Spec L_Num M_Baselines M_EM M_Float M_Float2 M_Float3 Spec_Float L_Float L_Float2 L_Float3 L_Float4 L_Float5 L_Float6 L_Float7 L_Float8 L_Float9 L_Float10 L_Float11.
Import ListNotations.
Open Scope R_scope.

Local Notation pow2 := (bpow radix2).

Lemma vmap2_nth f l m i a b c : length l = length m -> (i < length l)%nat ->
  nth i (vmap2 f l m) c = f (nth i l a) (nth i m b).
Proof.
  revert m i. induction l as [|x l IH]; intros [|y m] i H I; try discriminate H; [cbn in I; lia|].
  destruct i; [reflexivity|]. cbn in *. apply IH; lia.
Qed.

Lemma vmap2_len f l m : length l = length m -> length (vmap2 f l m) = length l.
Proof. revert m. induction l as [|x l IH]; intros [|y m] H; try discriminate H; [reflexivity|]. cbn in *. rewrite IH; lia. Qed.

Lemma nth_val l i : nth i (map val l) 0 = val (nth i l f0).
Proof. destruct f0_ok as (_ & V). rewrite <- V. apply map_nth. Qed.

(** One product. *)
Lemma weight_close x p t : in_unit x -> in_unit p -> finite t -> pow2 (-50) <= val t <= 1 ->
  Rabs (val (fmul x (fdiv p t)) - val x * (val p / val t)) <= 3 * ulp1 * (val x * (val p / val t)) + 3 * pow2 (-1075).
Proof.
  intros (Fx & Bx) (Fp & Bp) Ft Bt. pose proof (bpow_gt_0 radix2 (-50)) as P50.
  assert (It : 1 <= / val t <= pow2 50).
  { split; [rewrite <- Rinv_1; apply Rinv_le_contravar; lra|]. change 50%Z with (- (-50))%Z. rewrite bpow_opp. apply Rinv_le_contravar; lra. }
  assert (Q : val p <= val p / val t <= pow2 50).
  { unfold Rdiv. split; [rewrite <- (Rmult_1_r (val p)) at 1; apply Rmult_le_compat_l; lra|].
    rewrite <- (Rmult_1_l (pow2 50)). apply Rmult_le_compat; lra. }
  assert (P1 : pow2 50 <= pow2 1000) by (apply bpow_le; lia).
  destruct (fdiv_ok p t Fp ltac:(lra)) as (Fr & Vr); [rewrite Rabs_pos_eq; lra|].
  pose proof (nearest_mixed (val p / val t)) as M1. rewrite <- Vr in M1.
  assert (Br : 0 <= val (fdiv p t) <= pow2 50).
  { rewrite Vr. split; [apply nearest_ge_format; [apply format_0|lra]|apply nearest_le_format; [apply format_bpow; lia|lra]]. }
  set (r := fdiv p t) in *. set (q := val p / val t) in *. clearbody r. clear Vr.
  assert (Qx : 0 <= val x * val r <= pow2 50).
  { split; [apply Rmult_le_pos; lra|]. rewrite <- (Rmult_1_l (pow2 50)). apply Rmult_le_compat; lra. }
  destruct (fmul_ok x r Fx Fr) as (Fw & Vw); [rewrite Rabs_pos_eq; lra|]. rewrite Vw.
  pose proof (nearest_mixed (val x * val r)) as M2. rewrite (Rabs_pos_eq (val x * val r)) in M2 by lra. rewrite Rabs_pos_eq with (x := q) in M1 by lra.
  set (u := ulp1) in *. assert (u0 : 0 < u) by apply bpow_gt_0. assert (u1 : u <= 1/1000) by (unfold u, ulp1; apply Rle_trans with (pow2 (-10)); [apply bpow_le; lia|cbn; lra]).
  set (h := pow2 (-1075)) in *. assert (h0 : 0 < h) by apply bpow_gt_0.
  set (a := val x) in *. assert (aq : 0 <= a * q) by (apply Rmult_le_pos; lra).
  assert (D : Rabs (a * val r - a * q) <= u * (a * q) + h).
  { replace (a * val r - a * q) with (a * (val r - q)) by ring. rewrite Rabs_mult, (Rabs_pos_eq a) by lra.
    apply Rle_trans with (a * (u * q + h)); [apply Rmult_le_compat_l; lra|]. assert (a * h <= 1 * h) by (apply Rmult_le_compat_r; lra). lra. }
  apply Rabs_le_inv in D.
  assert (S : u * (a * val r) <= u * (a * q + u * (a * q) + h)) by (apply Rmult_le_compat_l; lra).
  assert (u * (u * (a * q)) <= 1/1000 * (u * (a * q))) by (apply Rmult_le_compat_r; [apply Rmult_le_pos; lra|lra]).
  assert (u * h <= 1/1000 * h) by (apply Rmult_le_compat_r; lra).
  assert (0 <= u * (a * q)) by (apply Rmult_le_pos; lra).
  apply Rabs_le_inv in M2. apply Rabs_le. lra.
Qed.

(** Shares of numbers that are nearly the same. *)
Lemma shares_close (l m : list R) k c h j : length l = k -> length m = k -> (j < k)%nat ->
  (forall i, (i < k)%nat -> 0 <= nth i l 0 /\ 0 <= nth i m 0 /\ Rabs (nth i l 0 - nth i m 0) <= c * nth i m 0 + h) ->
  0 <= h -> 0 <= c <= 1/100 -> INR (k + 1) * h <= c / 100 * rsum l -> 0 < rsum l ->
  0 < rsum m /\ Rabs (nth j l 0 / rsum l - nth j m 0 / rsum m) <= 3 * c.
Proof.
  intros Ll Lm J H Hh Hc Hk Sp.
  assert (Sums : Rabs (rsum l - rsum m) <= c * rsum m + INR k * h /\ (forall i, (i < k)%nat -> nth i m 0 <= rsum m) /\ 0 <= rsum m).
  { clear J j Hk Sp. revert m k Ll Lm H. induction l as [|x l IH]; intros m k Ll Lm H.
    - cbn in Ll. subst k. destruct m; [|discriminate]. cbn. rewrite Rminus_0_r, Rabs_R0. split; [lra|]. split; [intros; lia|lra].
    - destruct m as [|y m]; [cbn in *; lia|]. cbn [length] in Ll, Lm. destruct k as [|k]; [lia|]. injection Ll as Ll. injection Lm as Lm.
      destruct (IH m k Ll Lm) as (D & U & P). { intros i I. apply (H (S i)). lia. }
      destruct (H 0%nat ltac:(lia)) as (X & Y & Dx). cbn [nth] in X, Y, Dx.
      change (rsum (x :: l)) with (x + rsum l). change (rsum (y :: m)) with (y + rsum m). rewrite S_INR. split; [|split].
      + replace (x + rsum l - (y + rsum m)) with ((x - y) + (rsum l - rsum m)) by ring. apply Rle_trans with (1 := Rabs_triang _ _). lra.
      + intros [|i] I; cbn [nth]; [lra|]. specialize (U i ltac:(lia)). lra.
      + lra. }
  destruct Sums as (D & U & P). specialize (U j J). destruct (H j J) as (X & Y & Dj). rewrite plus_INR in Hk. change (INR 1) with 1 in Hk.
  set (S := rsum l) in *. set (T := rsum m) in *. set (x := nth j l 0) in *. set (y := nth j m 0) in *.
  assert (kh : 0 <= INR k * h) by (apply Rmult_le_pos; [apply pos_INR|exact Hh]).
  assert (cS : c / 100 * S <= 1/10000 * S) by (apply Rmult_le_compat_r; lra).
  assert (cT : c * T <= 1/100 * T) by (apply Rmult_le_compat_r; lra). pose proof D as D'. apply Rabs_le_inv in D'.
  assert (TS : T <= 1.02 * S) by lra. assert (T0 : 0 < T) by lra. split; [exact T0|].
  replace (x / S - y / T) with (((x - y) + y / T * (T - S)) * / S) by (field; lra).
  rewrite Rabs_mult, (Rabs_pos_eq (/ S)) by (left; apply Rinv_0_lt_compat, Sp).
  apply Rmult_le_reg_r with S; [exact Sp|]. rewrite Rmult_assoc, Rinv_l, Rmult_1_r by lra.
  apply Rle_trans with (1 := Rabs_triang _ _). rewrite Rabs_mult.
  assert (yT : 0 <= y / T <= 1). { split; [apply Rdiv_le_0_compat; lra|]. apply Rmult_le_reg_r with T; [exact T0|]. unfold Rdiv. rewrite Rmult_assoc, Rinv_l by lra. lra. }
  rewrite (Rabs_pos_eq (y / T)) by lra. rewrite (Rabs_minus_sym T S).
  assert (y / T * Rabs (S - T) <= 1 * (c * T + INR k * h)) by (apply Rmult_le_compat; try lra; apply Rabs_pos).
  assert (c * y <= c * T) by (apply Rmult_le_compat_l; lra).
  assert (c * T <= c * (1.02 * S)) by (apply Rmult_le_compat_l; lra). assert (0 <= c * S) by (apply Rmult_le_pos; lra). lra.
Qed.

Section Posterior.
Variable np_sum : list float -> float.
Hypothesis A : adds_in_some_order np_sum.
Variables train p x : list float.
Hypothesis T : usable train.
Hypothesis Nk : (length train <= 1000)%nat.
Hypothesis Up : Forall in_unit p.
Hypothesis Lp : length p = length train.
Hypothesis Ux : Forall in_unit x.
Hypothesis Lx : length x = length train.

Lemma posterior_close : alive x p ->
  0 < rsum (em_reweight (map val train) (map val p) (map val x)) /\
  forall j, (j < length train)%nat ->
    Rabs (val (nth j (EM_posterior_float np_sum train p x) f0) -
          nth j (vdiv (em_reweight (map val train) (map val p) (map val x)) (rsum (em_reweight (map val train) (map val p) (map val x)))) 0)
      <= INR (length train + 2) * pow2 (-50).
Proof using A T Nk Up Lp Ux Lx.
  intros (q & Hq & Sep & j & J & Xj & Pj). set (w := fmap2 fmul x (fmap2 fdiv p train)).
  pose proof (weights_length train p x Lp Lx) as Lw. pose proof (weights_bounded train p x T Up Lp Ux Lx) as Bw. fold w in Lw, Bw.
  set (m := em_reweight (map val train) (map val p) (map val x)). set (k := length train) in *.
  assert (Jt : (j < k)%nat) by lia.
  pose proof (Forall_nth_in _ train j f0 T Jt) as (Ftj & Btj).
  destruct (weight_ok (nth j x f0) (nth j p f0) (nth j train f0)) as (_ & Wl & _ & _);
    [apply Forall_nth_in; [exact Ux|lia]|apply Forall_nth_in; [exact Up|lia]|exact Ftj|exact Btj|].
  specialize (Wl q (-101)%Z Xj Pj ltac:(lia) ltac:(lia)). rewrite <- weights_nth in Wl by assumption. fold w in Wl.
  assert (Ij : In (nth j w f0) w) by (apply nth_In; lia).
  pose proof (bpow_gt_0 radix2 (q + -101)) as Pq.
  assert (Pw : 0 < exact_sum w) by (apply (exact_pos 50 w (nth j w f0)); [exact Bw|exact Ij|lra]).
  assert (Nw : (Z.of_nat (length w) <= 2 ^ 50)%Z) by lia.
  pose proof (divided_entries 50 np_sum w ltac:(lia) ltac:(lia) A Bw Nw Pw) as DE.
  assert (Sl : pow2 (-1001) <= exact_sum w).
  { apply Rle_trans with (pow2 (q + -101)); [apply bpow_le; lia|]. pose proof (exact_entry 50 w (nth j w f0) Bw Ij). lra. }
  assert (Lr : length (vmap2 Rdiv (map val p) (map val train)) = k) by (rewrite vmap2_len; rewrite !map_length; lia).
  assert (Lm : length m = k). { unfold m, em_reweight. rewrite vmap2_len; rewrite ?map_length; lia. }
  assert (Nm : forall i, (i < k)%nat -> nth i m 0 = val (nth i x f0) * (val (nth i p f0) / val (nth i train f0))).
  { intros i I. unfold m, em_reweight. rewrite (vmap2_nth Rmult _ _ i 0 0) by (rewrite ?map_length; lia).
    rewrite (vmap2_nth Rdiv _ _ i 0 0) by (rewrite !map_length; lia). rewrite !nth_val. reflexivity. }
  assert (Kb : INR (k + 1) <= pow2 10).
  { rewrite INR_IZR_INZ. change (pow2 10) with (IZR (2 ^ 10)). apply IZR_le. lia. }
  assert (SC : forall i, (i < k)%nat -> 0 < rsum m /\ Rabs (nth i (map val w) 0 / rsum (map val w) - nth i m 0 / rsum m) <= 3 * (3 * ulp1)).
  { intros i I. apply (shares_close (map val w) m k (3 * ulp1) (3 * pow2 (-1075)) i); try assumption.
    - rewrite map_length. exact Lw.
    - clear i I. intros i I. rewrite nth_val, (Nm i I). destruct (Forall_nth_in _ w i f0 Bw ltac:(lia)) as (_ & B).
      pose proof (Forall_nth_in _ train i f0 T I) as (Fti & Bti).
      pose proof (Forall_nth_in _ x i f0 Ux ltac:(lia)) as Uxi. pose proof (Forall_nth_in _ p i f0 Up ltac:(lia)) as Upi.
      split; [lra|]. split.
      + destruct Uxi as (_ & B1), Upi as (_ & B2). pose proof (bpow_gt_0 radix2 (-50)). apply Rmult_le_pos; [lra|]. apply Rdiv_le_0_compat; lra.
      + unfold w. rewrite weights_nth by assumption. apply weight_close; assumption.
    - assert (0 < pow2 (-1075)) by apply bpow_gt_0. lra.
    - assert (0 < ulp1) by apply bpow_gt_0. assert (ulp1 <= pow2 (-10)) by (apply bpow_le; lia). assert (pow2 (-10) = / 1024) by reflexivity. lra.
    - change (rsum (map val w)) with (exact_sum w). assert (0 < pow2 (-1075)) by apply bpow_gt_0.
      apply Rle_trans with (pow2 10 * (3 * pow2 (-1075))); [apply Rmult_le_compat_r; lra|].
      apply Rle_trans with (3 * ulp1 / 100 * pow2 (-1001)).
      + replace (pow2 10 * (3 * pow2 (-1075))) with (3 * pow2 (10 + -1075)) by (rewrite bpow_plus; ring).
        replace (3 * ulp1 / 100 * pow2 (-1001)) with (3 / 100 * pow2 (-53 + -1001)) by (unfold ulp1; rewrite bpow_plus; field).
        change (-53 + -1001)%Z with (11 + (10 + -1075))%Z. rewrite (bpow_plus radix2 11 (10 + -1075)). change (bpow radix2 11) with 2048.
        assert (0 < pow2 (10 + -1075)) by apply bpow_gt_0. lra.
      + apply Rmult_le_compat_l; [|exact Sl]. assert (0 < ulp1) by apply bpow_gt_0. lra.
    }
  split; [exact (proj1 (SC j Jt))|]. intros i I. destruct (SC i I) as (_ & Ci). clear SC.
  change (EM_posterior_float np_sum train p x) with (map (fun a => fdiv a (np_sum w)) w).
  assert (E : nth i (map (fun a => fdiv a (np_sum w)) w) f0 = fdiv (nth i w f0) (np_sum w)).
  { rewrite (nth_indep _ f0 (fdiv f0 (np_sum w))) by (rewrite map_length; lia). apply (map_nth (fun a => fdiv a (np_sum w))). }
  rewrite E. unfold vdiv. rewrite (nth_indep _ 0 (0 / rsum m)) by (rewrite map_length; lia). rewrite (map_nth (fun z => z / rsum m)).
  assert (Ii : In (nth i w f0) w) by (apply nth_In; lia). specialize (DE _ Ii). rewrite nth_val in Ci. change (rsum (map val w)) with (exact_sum w) in Ci.
  rewrite Lw in DE. rewrite plus_INR. change (INR 2) with 2. assert (B50 : pow2 (-50) = 8 * ulp1). { unfold ulp1. change (-50)%Z with (3 + -53)%Z. rewrite bpow_plus. reflexivity. }
  assert (0 < ulp1) by apply bpow_gt_0. rewrite B50 in DE |- *. apply Rabs_le_inv in DE, Ci. apply Rabs_le. lra.
Qed.
End Posterior.

Section Step.
Variables axis_sum np_sum : list float -> float.
Hypothesis A1 : adds_in_some_order axis_sum.
Hypothesis A2 : adds_in_some_order np_sum.
Variable train : list float.
Variable preds : list (list float).
Hypothesis T : usable train.
Hypothesis Nk : (length train <= 1000)%nat.
Hypothesis E : preds <> [].
Hypothesis Nn : (Z.of_nat (length preds) <= 2 ^ 50)%Z.
Hypothesis Lx : Forall (fun x => length x = length train) preds.
Hypothesis Ux : Forall (Forall in_unit) preds.

Definition round_error : R := INR (length preds + 4 * length train + 9) * pow2 (-52).

Lemma step_close p : fine train preds p ->
  exists q, em_step (map val train) (map (map val) preds) (map val p) = Val q /\
    within round_error (EM_step_float axis_sum np_sum train preds p) q.
Proof using A1 A2 T Nk E Nn Lx Ux.
  intros (Lp & Up & Al).
  assert (Each : forall x, In x preds -> length x = length train /\ Forall in_unit x /\ alive x p).
  { intros x I. rewrite Forall_forall in Lx, Ux, Al. split; [apply Lx, I|]. split; [apply Ux, I|apply Al, I]. }
  assert (Nk' : (Z.of_nat (length train) <= 2 ^ 40)%Z) by lia.
  unfold em_step.
  assert (Z1 : existsb is_zero (map val train) = false).
  { apply Bool.not_true_is_false. intros H. apply existsb_exists in H. destruct H as (t & I & Z). apply in_map_iff in I. destruct I as (t' & <- & I).
    unfold usable in T. rewrite Forall_forall in T. destruct (T t' I) as (_ & B). pose proof (bpow_gt_0 radix2 (-50)). unfold is_zero in Z.
    destruct (Req_EM_T (val t') 0); [lra|discriminate]. }
  rewrite Z1.
  assert (Z2 : existsb (fun row => is_zero (rsum (em_reweight (map val train) (map val p) row))) (map (map val) preds) = false).
  { apply Bool.not_true_is_false. intros H. apply existsb_exists in H. destruct H as (t & I & Z). apply in_map_iff in I. destruct I as (x & <- & I).
    destruct (Each x I) as (L & U & Ax). destruct (posterior_close np_sum A2 train p x T Nk Up Lp U L Ax) as (P & _). unfold is_zero in Z.
    destruct (Req_EM_T _ 0); [lra|discriminate]. }
  rewrite Z2. clear Z2. destruct (map (map val) preds) as [|r0 t0] eqn:Er; [destruct preds; [congruence|discriminate]|]. rewrite <- Er. clear Er r0 t0.
  eexists. split; [reflexivity|]. rewrite map_length. unfold EM_step_float, PCC_float, col_means.
  set (post := map (EM_posterior_float np_sum train p) preds).
  assert (Upost : Forall (Forall in_unit) post).
  { apply Forall_forall. intros r I. apply in_map_iff in I. destruct I as (x & <- & I). destruct (Each x I) as (L & U & Ax). apply posterior_ok; assumption. }
  assert (Epost : post <> []) by (unfold post; destruct preds; [congruence|discriminate]).
  assert (Ln : length post = length preds) by (unfold post; apply map_length).
  unfold within. assert (Sq : forall j, In j (seq 0 (length train)) -> (j < length train)%nat) by (intros j I; apply in_seq in I; lia).
  induction (seq 0 (length train)) as [|j l IH]; [constructor|]. cbn [map]. constructor; [|apply IH; intros i I; apply Sq; right; exact I].
  specialize (Sq j (or_introl eq_refl)). clear IH.
  assert (Ec : fcol j post <> []) by (destruct post; [congruence|discriminate]).
  pose proof (fmean_error axis_sum (fcol j post) A1 Ec (fcol_unit j post Upost) ltac:(rewrite fcol_length, Ln; exact Nn)) as FE.
  rewrite fcol_length, Ln in FE. rewrite exact_mean_rmean in FE.
  assert (PM : Rabs (rmean (map val (fcol j post)) - rmean (col j (map (fun row => let w := em_reweight (map val train) (map val p) row in vdiv w (rsum w)) (map (map val) preds))))
    <= INR (length train + 2) * pow2 (-50)).
  { unfold fcol, col, post. rewrite !map_map. apply rmean_pointwise; [exact E|]. intros x I. destruct (Each x I) as (L & U & Ax). cbv zeta.
    apply (posterior_close np_sum A2 train p x T Nk Up Lp U L Ax). exact Sq. }
  unfold round_error. rewrite !plus_INR, mult_INR in *. replace (INR 4) with 4 by (cbn; lra). replace (INR 9) with 9 by (cbn; lra).
  change (INR 2) with 2 in PM. change (INR 1) with 1 in FE.
  assert (B50 : pow2 (-50) = 4 * pow2 (-52)). { change (-50)%Z with (2 + -52)%Z. rewrite bpow_plus. reflexivity. } rewrite B50 in PM.
  apply Rabs_le_inv in FE, PM. apply Rabs_le. lra.
Qed.

Fixpoint rounds (r : nat) (p : list float) : list float :=
  match r with O => p | S r => EM_step_float axis_sum np_sum train preds (rounds r p) end.

Lemma rounds_shift r p : rounds r (EM_step_float axis_sum np_sum train preds p) = rounds (S r) p.
Proof using. induction r as [|r IH]; [reflexivity|]. cbn [rounds] in *. rewrite IH. reflexivity. Qed.

Lemma rounds_fine r p : fine train preds p -> fine train preds (rounds r p).
Proof using A1 A2 T Nk E Nn Lx Ux.
  intros F. induction r as [|r IH]; [exact F|]. cbn [rounds]. apply step_ok; try assumption. lia.
Qed.

Lemma EM_loop_rounds epsilon left : forall iterations p prev,
  exists r, (r <= left)%nat /\ (Nat.min 10 (iterations + left) <= iterations + r \/ 10 <= iterations)%nat /\
    EM_loop_float axis_sum np_sum epsilon train preds left iterations p prev = rounds r p /\
    ((r < left)%nat -> flt epsilon (mae_float np_sum (rounds r p) (match r with O => prev | S r => rounds r p end)) = false /\ (10 <= iterations + r)%nat).
Proof using.
  clear A1 A2 T Nk E Nn Lx Ux. induction left as [|m IH]; intros iterations p prev; cbn [EM_loop_float].
  - exists O. split; [lia|]. split; [lia|]. split; [reflexivity|lia].
  - destruct (flt epsilon (mae_float np_sum p prev) || Nat.ltb iterations 10) eqn:C.
    + destruct (IH (S iterations) (EM_step_float axis_sum np_sum train preds p) p) as (r & L & M & Q & St).
      exists (S r). split; [lia|]. split; [lia|]. split; [rewrite Q; apply rounds_shift|]. intros H. specialize (St ltac:(lia)).
      rewrite rounds_shift in St. destruct r as [|r]; [|rewrite rounds_shift in St]; (split; [exact (proj1 St)|lia]).
    + apply orb_false_iff in C. destruct C as (C1 & C2). apply Nat.ltb_ge in C2. exists O. split; [lia|]. split; [lia|]. split; [reflexivity|].
      intros _. split; [exact C1|lia].
Qed.
End Step.

Lemma EM_rounds axis_sum np_sum epsilon max_iter y preds : adds_in_some_order axis_sum -> adds_in_some_order np_sum ->
  y <> [] -> (Z.of_nat (length y) <= 2 ^ 40)%Z -> (length (np_unique y) <= 1000)%nat -> preds <> [] -> (Z.of_nat (length preds) <= 2 ^ 50)%Z ->
  Forall (fun x => length x = length (np_unique y)) preds -> Forall (Forall in_unit) preds -> Forall separated preds ->
  exists (it : nat -> list float) (r : nat),
    it 0%nat = EM_train_float (np_unique y) y /\
    within (pow2 (-54)) (it 0%nat) (map (fun c => INR (zcount c y) / INR (length y)) (np_unique y)) /\
    EM_float axis_sum np_sum epsilon max_iter (EM_train_float (np_unique y) y) preds = it r /\
    (Nat.min 10 max_iter <= r <= max_iter)%nat /\
    (forall i, (i < r)%nat -> exists q, em_step (map val (it 0%nat)) (map (map val) preds) (map val (it i)) = Val q /\
       within (INR (length preds + 4 * length (np_unique y) + 9) * pow2 (-52)) (it (S i)) q) /\
    ((r < max_iter)%nat -> flt epsilon (mae_float np_sum (it r) (it (r - 1)%nat)) = false).
Proof.
  intros A1 A2 Ey Ny Nc Ep Np Lx Ux Sp. set (train := EM_train_float (np_unique y) y).
  assert (Lt : length train = length (np_unique y)) by (unfold train, EM_train_float; apply map_length).
  assert (T : usable train) by (apply EM_train_usable; [exact Ey|lia|intros c I; apply np_unique_in, I]).
  assert (Lx' : Forall (fun x => length x = length train) preds) by (eapply Forall_impl; [|exact Lx]; intros x ->; lia).
  assert (Ut : Forall in_unit train) by (apply EM_train_units; [exact Ey|unfold small; lia]).
  assert (F0 : fine train preds train).
  { split; [reflexivity|]. split; [exact Ut|]. apply Forall_forall. intros x I. rewrite Forall_forall in Sp, Lx'. destruct (Sp x I) as (q & Hq & Ex & Se).
    exists q. split; [exact Hq|]. split; [exact Se|]. apply Exists_exists in Ex. destruct Ex as (z & Iz & Bz).
    apply (In_nth _ _ f0) in Iz. destruct Iz as (j & J & <-). exists j. split; [exact J|]. split; [exact Bz|].
    rewrite (Lx' x I) in J. destruct (Forall_nth_in _ train j f0 T J) as (_ & B & _). apply Rle_trans with (2 := B). apply bpow_le. lia. }
  destruct (EM_loop_rounds axis_sum np_sum train preds epsilon max_iter 0 train (map (fun _ => f1) train)) as (r & L & M & Q & St).
  exists (fun i => rounds axis_sum np_sum train preds i train), r. split; [reflexivity|]. split.
  { cbn [rounds]. unfold train, EM_train_float, within. clear - Ey Ny. induction (np_unique y) as [|c l IH]; [constructor|]. cbn [map]. constructor; [|exact IH].
    destruct (frac_val (zcount c y) (length y) (zcount_le c y)) as (_ & V); [destruct y; [congruence|cbn; lia]|unfold small; lia|].
    rewrite V. apply frac_error; [apply zcount_le|destruct y; [congruence|cbn; lia]]. }
  split; [exact Q|]. split; [lia|]. split.
  - intros i I. cbn [rounds]. rewrite <- Lt. apply step_close; try assumption; [lia|]. apply rounds_fine; try assumption. lia.
  - intros H. destruct (St H) as (G & Ge). destruct r as [|r]; [lia|]. cbn [Nat.sub]. rewrite Nat.sub_0_r. exact G.
Qed.
