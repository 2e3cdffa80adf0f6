(** * EM in double precision. *)

From Coq Require Import Reals ZArith List Permutation Lia Lra Bool Psatz.
From Flocq Require Import Core BinarySingleNaN Relative Plus_error.
From Verif Require Import Num Spec L_Num M_Baselines M_Float M_Float2 M_Float3 Spec_Float L_Float L_Float2 L_Float3 L_Float4 L_Float5 L_Float6 L_Float7 L_Float8 L_Float9.
Import ListNotations.
Open Scope R_scope.

Local Notation pow2 := (bpow radix2).

Lemma fmap2_length f l m : length l = length m -> length (fmap2 f l m) = length l.
Proof. revert m. induction l as [|x l IH]; intros [|y m] H; try discriminate H; [reflexivity|]. cbn in *. rewrite IH; lia. Qed.

Lemma fmap2_nth f l m i a b c : length l = length m -> (i < length l)%nat ->
  nth i (fmap2 f l m) c = f (nth i l a) (nth i m b).
Proof.
  revert m i. induction l as [|x l IH]; intros [|y m] i H I; try discriminate H; [cbn in I; lia|].
  destruct i; [reflexivity|]. cbn in *. apply IH; lia.
Qed.

(** One product: posterior times new over old prevalence. *)
Lemma weight_ok x p t : in_unit x -> in_unit p -> finite t -> pow2 (-50) <= val t <= 1 ->
  bounded 50 (fmul x (fdiv p t)) /\
  (forall a b, pow2 a <= val x -> pow2 b <= val p -> (-1074 <= b)%Z -> (-1074 <= a + b)%Z -> pow2 (a + b) <= val (fmul x (fdiv p t))) /\
  (forall a, val x <= pow2 a -> (-1074 <= a + 50)%Z -> val (fmul x (fdiv p t)) <= pow2 (a + 50)) /\
  (val x = 0 -> val (fmul x (fdiv p t)) = 0).
Proof.
  intros (Fx & Bx) (Fp & Bp) Ft Bt. pose proof (bpow_gt_0 radix2 (-50)) as P50.
  assert (It : 1 <= / val t <= pow2 50).
  { split; [rewrite <- Rinv_1; apply Rinv_le_contravar; lra|]. change 50%Z with (- (-50))%Z. rewrite bpow_opp. apply Rinv_le_contravar; lra. }
  assert (Q : val p <= val p / val t <= pow2 50).
  { unfold Rdiv. split; [rewrite <- (Rmult_1_r (val p)) at 1; apply Rmult_le_compat_l; lra|].
    rewrite <- (Rmult_1_l (pow2 50)). apply Rmult_le_compat; lra. }
  assert (P1 : pow2 50 <= pow2 1000) by (apply bpow_le; lia).
  destruct (fdiv_ok p t Fp ltac:(lra)) as (Fr & Vr); [rewrite Rabs_pos_eq; lra|].
  assert (Br : val p <= val (fdiv p t) <= pow2 50).
  { rewrite Vr. split; [apply nearest_ge_format; [apply format_val|lra]|apply nearest_le_format; [apply format_bpow; lia|lra]]. }
  set (r := fdiv p t) in *. clearbody r. clear Vr.
  assert (Qx : 0 <= val x * val r <= pow2 50).
  { split; [apply Rmult_le_pos; lra|]. rewrite <- (Rmult_1_l (pow2 50)). apply Rmult_le_compat; lra. }
  destruct (fmul_ok x r Fx Fr) as (Fw & Vw); [rewrite Rabs_pos_eq; lra|]. rewrite Vw.
  split; [|split; [|split]].
  - split; [exact Fw|]. rewrite Vw. split; [apply nearest_ge_format; [apply format_0|lra]|apply nearest_le_format; [apply format_bpow; lia|lra]].
  - intros a b Ha Hb Eb Eab. apply nearest_ge_format; [apply format_bpow; lia|]. rewrite bpow_plus.
    apply Rmult_le_compat; try apply bpow_ge_0; lra.
  - intros a Ha Ea. apply nearest_le_format; [apply format_bpow; lia|]. rewrite bpow_plus. apply Rmult_le_compat; lra.
  - intros ->. rewrite Rmult_0_l. apply nearest_0.
Qed.

Definition usable (train : list float) : Prop := Forall (fun t => finite t /\ pow2 (-50) <= val t <= 1) train.

Lemma weights_nth x p train j : length x = length train -> length p = length train -> (j < length train)%nat ->
  nth j (fmap2 fmul x (fmap2 fdiv p train)) f0 = fmul (nth j x f0) (fdiv (nth j p f0) (nth j train f0)).
Proof.
  intros Lx Lp J. rewrite (fmap2_nth fmul x (fmap2 fdiv p train) j f0 f0); [|rewrite fmap2_length; lia|lia].
  rewrite (fmap2_nth fdiv p train j f0 f0); [reflexivity|lia|lia].
Qed.

Lemma Forall_nth_in {A : Type} (P : A -> Prop) l i d : Forall P l -> (i < length l)%nat -> P (nth i l d).
Proof. intros H I. rewrite Forall_forall in H. apply H, nth_In, I. Qed.

Lemma exists_large (a : R) l : a * INR (length l) < exact_sum l -> Exists (fun x => a <= val x) l.
Proof.
  unfold exact_sum. induction l as [|x l IH]; cbn [length map fold_right]; [cbn; lra|]. rewrite S_INR. intros H.
  destruct (Rle_dec a (val x)) as [L|L]; [left; exact L|]. right. apply IH. lra.
Qed.

Definition alive (row p : list float) : Prop :=
  exists q, (-900 <= q <= 0)%Z /\ Forall (fun x => pow2 q <= val x \/ val x <= pow2 (q - 200)) row /\
    exists j, (j < length row)%nat /\ pow2 q <= val (nth j row f0) /\ pow2 (-101) <= val (nth j p f0).

Section Posterior.
Variable np_sum : list float -> float.
Hypothesis A : adds_in_some_order np_sum.
Variables train p x : list float.
Hypothesis T : usable train.
Hypothesis Nk : (Z.of_nat (length train) <= 2 ^ 40)%Z.
Hypothesis Up : Forall in_unit p.
Hypothesis Lp : length p = length train.
Hypothesis Ux : Forall in_unit x.
Hypothesis Lx : length x = length train.

Let w := fmap2 fmul x (fmap2 fdiv p train).

Lemma weights_length : length w = length train.
Proof using Lx Lp. unfold w. rewrite fmap2_length; [exact Lx|]. rewrite fmap2_length; lia. Qed.

Lemma weights_bounded : Forall (bounded 50) w.
Proof using T Up Lp Ux Lx.
  apply Forall_forall. intros z I. apply (In_nth _ _ f0) in I. destruct I as (j & J & <-). rewrite weights_length in J.
  unfold w. rewrite weights_nth by assumption.
  destruct (Forall_nth_in _ train j f0 T J) as (Ft & Bt).
  apply weight_ok; [apply Forall_nth_in; [exact Ux|lia]|apply Forall_nth_in; [exact Up|lia]|exact Ft|exact Bt].
Qed.

Lemma posterior_length : length (EM_posterior_float np_sum train p x) = length train.
Proof using Lx Lp. unfold EM_posterior_float. rewrite map_length. apply weights_length. Qed.

Lemma posterior_ok : alive x p ->
  Forall in_unit (EM_posterior_float np_sum train p x) /\
  Rabs (exact_sum (EM_posterior_float np_sum train p x) - 1) <= INR (length train) * pow2 (-50) /\
  exists q, (-900 <= q <= 0)%Z /\ Forall (fun x => pow2 q <= val x \/ val x <= pow2 (q - 200)) x /\
    exists j, (j < length x)%nat /\ pow2 q <= val (nth j x f0) /\ pow2 (-41) <= val (nth j (EM_posterior_float np_sum train p x) f0).
Proof using A T Nk Up Lp Ux Lx.
  intros (q & Hq & Sep & j & J & Xj & Pj).
  assert (Jt : (j < length train)%nat) by lia.
  pose proof (Forall_nth_in _ train j f0 T Jt) as (Ftj & Btj).
  destruct (weight_ok (nth j x f0) (nth j p f0) (nth j train f0)) as (_ & Wl & _ & _);
    [apply Forall_nth_in; [exact Ux|lia]|apply Forall_nth_in; [exact Up|lia]|exact Ftj|exact Btj|].
  specialize (Wl q (-101)%Z Xj Pj ltac:(lia) ltac:(lia)). rewrite <- weights_nth in Wl by assumption. fold w in Wl.
  pose proof weights_length as Lw. pose proof weights_bounded as Bw.
  assert (Ij : In (nth j w f0) w) by (apply nth_In; lia).
  pose proof (bpow_gt_0 radix2 (q + -101)) as Pq.
  assert (Pw : 0 < exact_sum w) by (apply (exact_pos 50 w (nth j w f0)); [exact Bw|exact Ij|lra]).
  assert (Nw : (Z.of_nat (length w) <= 2 ^ 50)%Z) by lia.
  destruct (divided_by_sum 50 np_sum w ltac:(lia) ltac:(lia) A Bw Nw Pw) as (Sp & U & D). rewrite Lw in D.
  change (EM_posterior_float np_sum train p x) with (map (fun a => fdiv a (np_sum w)) w).
  split; [exact U|]. split; [exact D|]. exists q. split; [exact Hq|]. split; [exact Sep|].
  assert (Kp : 1 <= INR (length train)) by (change 1 with (INR 1); apply le_INR; lia).
  assert (Kb : INR (length train) <= pow2 40).
  { rewrite INR_IZR_INZ. change (pow2 40) with (IZR (2 ^ 40)). apply IZR_le, Nk. }
  assert (Half : 1/2 < exact_sum (map (fun a => fdiv a (np_sum w)) w)).
  { apply Rabs_le_inv in D. assert (INR (length train) * pow2 (-50) <= pow2 40 * pow2 (-50)) by (apply Rmult_le_compat_r; [apply bpow_ge_0|exact Kb]).
    assert (pow2 40 * pow2 (-50) <= 1/4) by (rewrite <- bpow_plus; cbn; lra). lra. }
  assert (Ex : Exists (fun z => pow2 (-41) <= val z) (map (fun a => fdiv a (np_sum w)) w)).
  { apply exists_large. rewrite map_length, Lw. apply Rle_lt_trans with (2 := Half).
    apply Rle_trans with (pow2 (-41) * pow2 40); [apply Rmult_le_compat_l; [apply bpow_ge_0|exact Kb]|]. rewrite <- bpow_plus. cbn. lra. }
  apply Exists_exists in Ex. destruct Ex as (z & Iz & Bz). apply (In_nth _ _ f0) in Iz. destruct Iz as (i & I & Ei). rewrite map_length, Lw in I.
  exists i. split; [lia|]. split; [|rewrite Ei; exact Bz].
  destruct (Forall_nth_in _ x i f0 Sep ltac:(lia)) as [G|G]; [exact G|]. exfalso.
  pose proof (Forall_nth_in _ train i f0 T I) as (Fti & Bti).
  destruct (weight_ok (nth i x f0) (nth i p f0) (nth i train f0)) as (_ & _ & Wu & _);
    [apply Forall_nth_in; [exact Ux|lia]|apply Forall_nth_in; [exact Up|lia]|exact Fti|exact Bti|].
  specialize (Wu (q - 200)%Z G ltac:(lia)). rewrite <- weights_nth in Wu by assumption. fold w in Wu.
  assert (Ii : In (nth i w f0) w) by (apply nth_In; lia).
  assert (Nw' : small (length w)) by (unfold small; lia).
  destruct (summed_range_gen 50 ltac:(lia) ltac:(lia) _ _ (A w) Bw Nw') as (Fs & _).
  pose proof (summed_ge_gen 50 ltac:(lia) ltac:(lia) _ _ (A w) Bw Nw' _ Ij) as Gj.
  pose proof (summed_ge_gen 50 ltac:(lia) ltac:(lia) _ _ (A w) Bw Nw' _ Ii) as Gi.
  destruct (Forall_nth_in _ w i f0 Bw ltac:(lia)) as (Fi & Bi).
  destruct (fdiv_unit (nth i w f0) (np_sum w) Fi Fs ltac:(lra) Sp) as (_ & V).
  assert (E : nth i (map (fun a => fdiv a (np_sum w)) w) f0 = fdiv (nth i w f0) (np_sum w)).
  { rewrite (nth_indep _ f0 (fdiv f0 (np_sum w))) by (rewrite map_length; lia). apply (map_nth (fun a => fdiv a (np_sum w))). }
  rewrite E in Ei. rewrite <- Ei, V in Bz.
  assert (Q : val (nth i w f0) / val (np_sum w) <= pow2 (-49)).
  { apply Rmult_le_reg_r with (val (np_sum w)); [exact Sp|]. unfold Rdiv. rewrite Rmult_assoc, Rinv_l, Rmult_1_r by lra.
    apply Rle_trans with (1 := Wu). apply Rle_trans with (pow2 (-49) * pow2 (q + -101)).
    - rewrite <- bpow_plus. apply bpow_le. lia.
    - apply Rmult_le_compat_l; [apply bpow_ge_0|lra]. }
  assert (Q' : nearest (val (nth i w f0) / val (np_sum w)) <= pow2 (-49)) by (apply nearest_le_format; [apply format_bpow; lia|exact Q]).
  assert (pow2 (-49) < pow2 (-41)) by (apply bpow_lt; lia). lra.
Qed.

End Posterior.

Section Step.
Variables axis_sum np_sum : list float -> float.
Hypothesis A1 : adds_in_some_order axis_sum.
Hypothesis A2 : adds_in_some_order np_sum.
Variable train : list float.
Variable preds : list (list float).
Hypothesis T : usable train.
Hypothesis Nk : (Z.of_nat (length train) <= 2 ^ 40)%Z.
Hypothesis E : preds <> [].
Hypothesis Nn : (Z.of_nat (length preds) <= 2 ^ 50)%Z.
Hypothesis Lx : Forall (fun x => length x = length train) preds.
Hypothesis Ux : Forall (Forall in_unit) preds.

Definition fine (p : list float) : Prop :=
  length p = length train /\ Forall in_unit p /\ Forall (fun x => alive x p) preds.

Lemma step_ok p : fine p -> fine (EM_step_float axis_sum np_sum train preds p) /\
  Rabs (exact_sum (EM_step_float axis_sum np_sum train preds p) - 1) <=
    INR (length train) * INR (length preds + 5) * pow2 (-52).
Proof using A1 A2 T Nk E Nn Lx Ux.
  intros (Lp & Up & Al). set (post := map (EM_posterior_float np_sum train p) preds).
  assert (Each : forall x, In x preds -> length x = length train /\ Forall in_unit x /\ alive x p).
  { intros x I. rewrite Forall_forall in Lx, Ux, Al. split; [apply Lx, I|]. split; [apply Ux, I|apply Al, I]. }
  assert (Lpost : Forall (fun r => length r = length train) post).
  { apply Forall_forall. intros r I. apply in_map_iff in I. destruct I as (x & <- & I). destruct (Each x I) as (L & _ & _). apply posterior_length; assumption. }
  assert (Upost : Forall (Forall in_unit) post).
  { apply Forall_forall. intros r I. apply in_map_iff in I. destruct I as (x & <- & I). destruct (Each x I) as (L & U & Ax). apply posterior_ok; assumption. }
  assert (Epost : post <> []) by (unfold post; destruct preds; [congruence|discriminate]).
  assert (Ln : length post = length preds) by (unfold post; apply map_length).
  assert (Np : 1 <= INR (length preds)) by (change 1 with (INR 1); apply le_INR; destruct preds; [congruence|cbn; lia]).
  assert (Nb : INR (length preds) <= pow2 50).
  { rewrite INR_IZR_INZ. change (pow2 50) with (IZR (2 ^ 50)). apply IZR_le, Nn. }
  change (EM_step_float axis_sum np_sum train preds p) with (PCC_float axis_sum (length train) post).
  assert (Np' : (Z.of_nat (length post) <= 2 ^ 50)%Z) by (rewrite Ln; exact Nn).
  pose proof (PCC_unit axis_sum (length train) post A1 Epost Upost Np') as U'.
  pose proof (PCC_close axis_sum (length train) post A1 Epost Upost Np') as C'.
  assert (L' : length (PCC_float axis_sum (length train) post) = length train) by (unfold PCC_float; rewrite map_length, seq_length; reflexivity).
  split; [split; [exact L'|split; [exact U'|]]|].
  - apply Forall_forall. intros x I. destruct (Each x I) as (L & U & Ax).
    destruct (posterior_ok np_sum A2 train p x T Nk Up Lp U L Ax) as (_ & _ & q & Hq & Sep & j & J & Xj & Pj).
    exists q. split; [exact Hq|]. split; [exact Sep|]. exists j. split; [exact J|]. split; [exact Xj|].
    assert (S' : small (length post)) by (unfold small; lia).
    destruct (PCC_float_nth axis_sum (length train) post j A1 Epost Upost S') as (_ & V); [lia|].
    unfold PCC_float. rewrite (nth_indep _ f0 (fmean axis_sum (fcol 0 post))) by (rewrite map_length, seq_length; lia).
    rewrite (map_nth (fun j => fmean axis_sum (fcol j post))), seq_nth by lia. cbn [Nat.add].
    assert (Ec : fcol j post <> []) by (destruct post; [congruence|discriminate]).
    assert (Sc : small (length (fcol j post))) by (rewrite fcol_length; exact S').
    destruct (fmean_unit axis_sum (fcol j post) A1 Ec (fcol_unit j post Upost) Sc) as (_ & W). rewrite W, fcol_length, Ln.
    assert (G : val (nth j (EM_posterior_float np_sum train p x) f0) <= val (axis_sum (fcol j post))).
    { apply (summed_ge _ _ (A1 (fcol j post)) (fcol_unit j post Upost) Sc). unfold fcol. apply in_map_iff.
      exists (EM_posterior_float np_sum train p x). split; [reflexivity|]. unfold post. apply in_map, I. }
    apply nearest_ge_format; [apply format_bpow; lia|]. apply Rmult_le_reg_r with (INR (length preds)); [lra|].
    unfold Rdiv. rewrite Rmult_assoc, Rinv_l, Rmult_1_r by lra. apply Rle_trans with (pow2 (-101) * pow2 50).
    + apply Rmult_le_compat_l; [apply bpow_ge_0|exact Nb].
    + rewrite <- bpow_plus. apply Rle_trans with (pow2 (-41)); [apply bpow_le; lia|lra].
  - pose proof (within_sum _ _ _ C') as D. rewrite L', Ln in D. rewrite (sum_of_means (length train) post Epost Lpost) in D. rewrite Ln in D.
    assert (M : Rabs (fold_right Rplus 0 (map exact_sum post) - INR (length preds)) <= INR (length preds) * (INR (length train) * pow2 (-50))).
    { unfold post. clear - Each A2 T Nk Up Lp. revert Each. induction preds as [|x l IH]; intros Each.
      - cbn. rewrite Rminus_0_r, Rabs_R0. lra.
      - cbn [map fold_right length]. rewrite S_INR. specialize (IH (fun z I => Each z (or_intror I))).
        destruct (Each x (or_introl eq_refl)) as (L & U & Ax).
        destruct (posterior_ok np_sum A2 train p x T Nk Up Lp U L Ax) as (_ & D & _).
        set (b := INR (length train) * pow2 (-50)) in *. apply Rabs_le_inv in IH, D. apply Rabs_le. lra. }
    set (s := fold_right Rplus 0 (map exact_sum post)) in *. set (n := INR (length preds)) in *.
    assert (M' : Rabs (s / n - 1) <= INR (length train) * pow2 (-50)).
    { replace (s / n - 1) with ((s - n) * / n) by (field; lra). rewrite Rabs_mult, (Rabs_pos_eq (/ n)) by (left; apply Rinv_0_lt_compat; lra).
      apply Rmult_le_reg_r with n; [lra|]. rewrite Rmult_assoc, Rinv_l, Rmult_1_r by lra. rewrite (Rmult_comm _ n). exact M. }
    replace (exact_sum (PCC_float axis_sum (length train) post) - 1)
      with ((exact_sum (PCC_float axis_sum (length train) post) - s / n) + (s / n - 1)) by ring.
    apply Rle_trans with (1 := Rabs_triang _ _).
    assert (B1 : pow2 (-50) = 4 * pow2 (-52)). { change (-50)%Z with (2 + -52)%Z. rewrite bpow_plus. reflexivity. }
    rewrite B1 in M'. rewrite !plus_INR in *. fold n in D |- *. cbn [INR] in *. lra.
Qed.

Lemma EM_loop_ok epsilon d : INR (length train) * INR (length preds + 5) * pow2 (-52) <= d -> forall left iterations p prev, fine p ->
  Rabs (exact_sum p - 1) <= d ->
  fine (EM_loop_float axis_sum np_sum epsilon train preds left iterations p prev) /\
  Rabs (exact_sum (EM_loop_float axis_sum np_sum epsilon train preds left iterations p prev) - 1) <= d.
Proof using A1 A2 T Nk E Nn Lx Ux.
  intros Hd. induction left as [|m IH]; intros iterations p prev Fp Sp; cbn [EM_loop_float]; [tauto|].
  destruct (_ || _); [|tauto]. destruct (step_ok p Fp) as (F' & S'). apply IH; [exact F'|lra].
Qed.

End Step.

(** ** The training prevalences *)

Lemma EM_train_nth classes y i : y <> [] -> small (length y) -> (i < length classes)%nat ->
  in_unit (nth i (EM_train_float classes y) f0) /\
  val (nth i (EM_train_float classes y) f0) = nearest (INR (zcount (nth i classes 0%Z) y) / INR (length y)).
Proof. intros Ey N I. exact (CC_float_nth classes y i I Ey N). Qed.

Lemma fraction_low c y : In c y -> (Z.of_nat (length y) <= 2 ^ 50)%Z -> pow2 (-50) <= INR (zcount c y) / INR (length y).
Proof.
  intros I N. assert (Cp : (1 <= zcount c y)%nat).
  { unfold zcount. apply (count_occ_In Z.eq_dec) in I. lia. }
  assert (Np : 1 <= INR (length y)) by (change 1 with (INR 1); apply le_INR; destruct y; [destruct I|cbn; lia]).
  assert (Nb : INR (length y) <= pow2 50).
  { rewrite INR_IZR_INZ. change (pow2 50) with (IZR (2 ^ 50)). apply IZR_le, N. }
  apply Rmult_le_reg_r with (INR (length y)); [lra|]. unfold Rdiv. rewrite Rmult_assoc, Rinv_l, Rmult_1_r by lra.
  apply Rle_trans with (pow2 (-50) * pow2 50); [apply Rmult_le_compat_l; [apply bpow_ge_0|exact Nb]|]. rewrite <- bpow_plus.
  change (bpow radix2 (-50 + 50)) with (INR 1). apply le_INR, Cp.
Qed.

Lemma EM_train_usable classes y : y <> [] -> (Z.of_nat (length y) <= 2 ^ 50)%Z -> (forall c, In c classes -> In c y) -> usable (EM_train_float classes y).
Proof.
  intros Ey N Inc. apply Forall_forall. intros t I. apply (In_nth _ _ f0) in I. destruct I as (i & I & <-).
  unfold EM_train_float in I. rewrite map_length in I. destruct (EM_train_nth classes y i Ey ltac:(unfold small; lia) I) as ((F & B) & V).
  split; [exact F|]. split; [|lra]. rewrite V. apply nearest_ge_format; [apply format_bpow; lia|]. apply fraction_low; [|exact N]. apply Inc, nth_In, I.
Qed.

Lemma EM_train_units classes y : y <> [] -> small (length y) -> Forall in_unit (EM_train_float classes y).
Proof.
  intros Ey N. apply Forall_forall. intros t I. apply (In_nth _ _ f0) in I. destruct I as (i & I & <-).
  unfold EM_train_float in I. rewrite map_length in I. apply EM_train_nth; assumption.
Qed.

Lemma EM_train_sum y : y <> [] -> (Z.of_nat (length y) <= 2 ^ 50)%Z ->
  Rabs (exact_sum (EM_train_float (np_unique y) y) - 1) <= INR (length (np_unique y)) * pow2 (-52).
Proof.
  intros Ey N. assert (Np : 0 < INR (length y)) by (apply lt_0_INR; destruct y; [congruence|cbn; lia]).
  assert (W : within (pow2 (-52)) (EM_train_float (np_unique y) y) (map (fun c => INR (zcount c y) / INR (length y)) (np_unique y))).
  { unfold EM_train_float, within. induction (np_unique y) as [|c l IH]; [constructor|]. cbn [map]. constructor; [|exact IH].
    destruct (frac_val (zcount c y) (length y) (zcount_le c y)) as (_ & V); [destruct y; [congruence|cbn; lia]|unfold small; lia|].
    rewrite V. apply Rle_trans with (pow2 (-54)); [|apply bpow_le; lia]. apply frac_error; [apply zcount_le|destruct y; [congruence|cbn; lia]]. }
  pose proof (within_sum _ _ _ W) as D. unfold EM_train_float in D at 2. rewrite map_length in D.
  assert (S1 : fold_right Rplus 0 (map (fun c => INR (zcount c y) / INR (length y)) (np_unique y)) = 1).
  { change (fold_right Rplus 0 (map (fun c => INR (zcount c y) / INR (length y)) (np_unique y))) with (rsum (map (fun c => INR (zcount c y) / INR (length y)) (np_unique y))).
    assert (Q : forall l, rsum (map (fun c => INR (zcount c y) / INR (length y)) l) = rsum (map (fun c => INR (zcount c y)) l) / INR (length y)).
    { induction l as [|c l IH]; [cbn; field; lra|]. cbn [map rsum fold_right] in *. unfold rsum in *. cbn [fold_right]. rewrite IH. field. lra. }
    rewrite Q, sum_zcount by apply np_unique_NoDup.
    rewrite (proj2 (known_all (np_unique y) y)) by (intros x I; apply np_unique_in, I). field. lra. }
  rewrite S1 in D. exact D.
Qed.

Lemma EM_float_ok axis_sum np_sum epsilon max_iter y preds : adds_in_some_order axis_sum -> adds_in_some_order np_sum ->
  y <> [] -> (Z.of_nat (length y) <= 2 ^ 40)%Z -> preds <> [] -> (Z.of_nat (length preds) <= 2 ^ 50)%Z ->
  Forall (fun x => length x = length (np_unique y)) preds -> Forall (Forall in_unit) preds -> Forall separated preds ->
  length (EM_float axis_sum np_sum epsilon max_iter (EM_train_float (np_unique y) y) preds) = length (np_unique y) /\
  Forall in_unit (EM_float axis_sum np_sum epsilon max_iter (EM_train_float (np_unique y) y) preds) /\
  Rabs (exact_sum (EM_float axis_sum np_sum epsilon max_iter (EM_train_float (np_unique y) y) preds) - 1) <=
    INR (length (np_unique y)) * INR (length preds + 5) * pow2 (-52).
Proof.
  intros A1 A2 Ey Ny Ep Np Lx Ux Sp. set (train := EM_train_float (np_unique y) y).
  assert (Lt : length train = length (np_unique y)) by (unfold train, EM_train_float; apply map_length).
  assert (Nk : (Z.of_nat (length train) <= 2 ^ 40)%Z).
  { rewrite Lt. assert (length (np_unique y) <= length y)%nat; [|lia]. apply NoDup_incl_length; [apply np_unique_NoDup|]. intros c I. apply np_unique_in, I. }
  assert (T : usable train) by (apply EM_train_usable; [exact Ey|lia|intros c I; apply np_unique_in, I]).
  assert (Lx' : Forall (fun x => length x = length train) preds) by (eapply Forall_impl; [|exact Lx]; intros x ->; lia).
  assert (Ut : Forall in_unit train) by (apply EM_train_units; [exact Ey|unfold small; lia]).
  assert (F0 : fine train preds train).
  { split; [reflexivity|]. split; [exact Ut|]. apply Forall_forall. intros x I. rewrite Forall_forall in Sp, Lx'. destruct (Sp x I) as (q & Hq & Ex & Se).
    exists q. split; [exact Hq|]. split; [exact Se|]. apply Exists_exists in Ex. destruct Ex as (z & Iz & Bz).
    apply (In_nth _ _ f0) in Iz. destruct Iz as (j & J & <-). exists j. split; [exact J|]. split; [exact Bz|].
    rewrite (Lx' x I) in J. destruct (Forall_nth_in _ train j f0 T J) as (_ & B & _). apply Rle_trans with (2 := B). apply bpow_le. lia. }
  assert (D0 : Rabs (exact_sum train - 1) <= INR (length train) * INR (length preds + 5) * pow2 (-52)).
  { apply Rle_trans with (INR (length train) * pow2 (-52)); [rewrite Lt; apply EM_train_sum; [exact Ey|lia]|].
    rewrite Rmult_assoc. apply Rmult_le_compat_l; [apply pos_INR|]. rewrite <- (Rmult_1_l (pow2 (-52))) at 1.
    apply Rmult_le_compat_r; [apply bpow_ge_0|]. change 1 with (INR 1). apply le_INR. lia. }
  destruct (EM_loop_ok axis_sum np_sum A1 A2 train preds T Nk Ep Np Lx' Ux epsilon _ (Rle_refl _) max_iter 0 train (map (fun _ => f1) train) F0 D0)
    as ((L & U & _) & D). rewrite Lt in L, D. split; [exact L|]. split; [exact U|exact D].
Qed.

(** ** Rows that are separated *)

Lemma separated_positive row : Exists (fun x => val x <> 0) row -> Forall (fun x => val x = 0 \/ pow2 (-900) <= val x) row -> separated row.
Proof.
  intros X F. exists (-900)%Z. split; [lia|]. split.
  - apply Exists_exists in X. destruct X as (x & I & N). apply Exists_exists. exists x. split; [exact I|].
    rewrite Forall_forall in F. destruct (F x I); [congruence|assumption].
  - eapply Forall_impl; [|exact F]. intros x [->|H]; [right; apply bpow_ge_0|left; exact H].
Qed.

Lemma separated_two a b : 1/4 <= val a \/ 1/4 <= val b -> separated [a; b].
Proof.
  assert (Q4 : pow2 (-2) = 1/4) by (cbn; lra).
  assert (L3 : pow2 (-300) <= pow2 (-202)) by (apply bpow_le; lia).
  assert (L2 : pow2 (-300) <= pow2 (-2)) by (apply bpow_le; lia).
  assert (G : forall u v, 1/4 <= u -> (pow2 (-300) <= v /\ pow2 (-300) <= u) \/ (v <= pow2 (-202) /\ pow2 (-2) <= u)).
  { intros u v H. destruct (Rle_dec (pow2 (-300)) v); [left|right]; lra. }
  intros [H|H].
  - destruct (G _ (val b) H) as [(B1 & B2)|(B1 & B2)].
    + exists (-300)%Z. split; [lia|]. split; [left; exact B2|]. apply Forall_cons; [left; exact B2|apply Forall_cons; [left; exact B1|constructor]].
    + exists (-2)%Z. split; [lia|]. split; [left; exact B2|]. apply Forall_cons; [left; exact B2|apply Forall_cons; [right; exact B1|constructor]].
  - destruct (G _ (val a) H) as [(B1 & B2)|(B1 & B2)].
    + exists (-300)%Z. split; [lia|]. split; [right; left; exact B2|]. apply Forall_cons; [left; exact B1|apply Forall_cons; [left; exact B2|constructor]].
    + exists (-2)%Z. split; [lia|]. split; [right; left; exact B2|]. apply Forall_cons; [right; exact B1|apply Forall_cons; [left; exact B2|constructor]].
Qed.

(** ** A class that no example can belong to *)

Section Absent.
Variables axis_sum np_sum : list float -> float.
Hypothesis A1 : adds_in_some_order axis_sum.
Hypothesis A2 : adds_in_some_order np_sum.
Variable train : list float.
Variable preds : list (list float).
Hypothesis T : usable train.
Hypothesis Nk : (Z.of_nat (length train) <= 2 ^ 40)%Z.
Hypothesis E : preds <> [].
Hypothesis Nn : (Z.of_nat (length preds) <= 2 ^ 50)%Z.
Hypothesis Lx : Forall (fun x => length x = length train) preds.
Hypothesis Ux : Forall (Forall in_unit) preds.
Variable j : nat.
Hypothesis J : (j < length train)%nat.
Hypothesis Z0 : Forall (fun x => val (nth j x f0) = 0) preds.

Lemma absent_posterior p x : length p = length train -> Forall in_unit p -> In x preds -> alive x p ->
  val (nth j (EM_posterior_float np_sum train p x) f0) = 0.
Proof using A2 T Nk Lx Ux J Z0.
  intros Lp Up I Ax. rewrite Forall_forall in Lx, Ux, Z0. specialize (Lx x I). specialize (Ux x I). specialize (Z0 x I). cbv beta in Lx, Z0.
  destruct (posterior_ok np_sum A2 train p x T Nk Up Lp Ux Lx Ax) as (U & _).
  destruct (Forall_nth_in _ train j f0 T J) as (Ft & Bt).
  destruct (weight_ok (nth j x f0) (nth j p f0) (nth j train f0)) as ((Fw & Bw) & _ & _ & Wz);
    [apply Forall_nth_in; [exact Ux|lia]|apply Forall_nth_in; [exact Up|lia]|exact Ft|exact Bt|]. specialize (Wz Z0).
  set (w := fmap2 fmul x (fmap2 fdiv p train)) in *.
  pose proof (weights_bounded train p x T Up Lp Ux Lx) as Bnd. fold w in Bnd.
  pose proof (weights_length train p x Lp Lx) as Lw. fold w in Lw.
  assert (Eq : nth j (EM_posterior_float np_sum train p x) f0 = fdiv (nth j w f0) (np_sum w)).
  { change (EM_posterior_float np_sum train p x) with (map (fun a => fdiv a (np_sum w)) w).
    rewrite (nth_indep _ f0 (fdiv f0 (np_sum w))) by (rewrite map_length; lia). apply (map_nth (fun a => fdiv a (np_sum w))). }
  rewrite Eq. rewrite <- (weights_nth x p train j Lx Lp J) in Wz, Fw. fold w in Wz, Fw.
  destruct (summed_range_gen 50 ltac:(lia) ltac:(lia) _ _ (A2 w) Bnd ltac:(unfold small; lia)) as (Fs & Bs & _).
  assert (Nz : val (np_sum w) <> 0).
  { intros V. assert (K : is_nan (fdiv (nth j w f0) (np_sum w)) = true) by (apply div_zero_nan; assumption).
    assert (H : in_unit (nth j (EM_posterior_float np_sum train p x) f0)).
    { apply Forall_nth_in; [exact U|]. rewrite (posterior_length np_sum train p x Lp Lx). exact J. }
    rewrite Eq in H. destruct H as (H & _). apply finite_not_nan in H. congruence. }
  destruct (fdiv_ok (nth j w f0) (np_sum w) Fw Nz) as (_ & V).
  - rewrite Wz. unfold Rdiv. rewrite Rmult_0_l, Rabs_R0. apply bpow_ge_0.
  - rewrite V, Wz. unfold Rdiv. rewrite Rmult_0_l. apply nearest_0.
Qed.

Lemma absent_step p : fine train preds p -> val (nth j (EM_step_float axis_sum np_sum train preds p) f0) = 0.
Proof using A1 A2 T Nk E Nn Lx Ux J Z0.
  intros (Lp & Up & Al). set (post := map (EM_posterior_float np_sum train p) preds).
  change (EM_step_float axis_sum np_sum train preds p) with (PCC_float axis_sum (length train) post).
  assert (Upost : Forall (Forall in_unit) post).
  { apply Forall_forall. intros r I. apply in_map_iff in I. destruct I as (x & <- & I). rewrite Forall_forall in Lx, Ux, Al.
    apply posterior_ok; try assumption; [apply Ux, I|apply Lx, I|apply Al, I]. }
  assert (Zpost : Forall (fun z => val z = 0) (fcol j post)).
  { apply Forall_forall. intros z I. unfold fcol, post in I. rewrite map_map in I. apply in_map_iff in I. destruct I as (x & <- & I).
    apply absent_posterior; try assumption. rewrite Forall_forall in Al. apply Al, I. }
  assert (Ln : length (fcol j post) = length preds) by (rewrite fcol_length; apply map_length).
  assert (Sc : small (length (fcol j post))) by (rewrite Ln; unfold small; lia).
  destruct (zero_sum axis_sum _ A1 (fcol_unit j post Upost) Sc Zpost) as (Fs & Vs).
  assert (Ec : fcol j post <> []) by (unfold fcol, post; destruct preds; [congruence|discriminate]).
  unfold PCC_float. rewrite (nth_indep _ f0 (fmean axis_sum (fcol 0 post))) by (rewrite map_length, seq_length; lia).
  rewrite (map_nth (fun j => fmean axis_sum (fcol j post))), seq_nth by lia. cbn [Nat.add].
  destruct (fmean_unit axis_sum (fcol j post) A1 Ec (fcol_unit j post Upost) Sc) as (_ & ->). rewrite Vs.
  unfold Rdiv. rewrite Rmult_0_l. apply nearest_0.
Qed.

Lemma absent_loop epsilon left iterations p prev : fine train preds p -> val (nth j p f0) = 0 ->
  val (nth j (EM_loop_float axis_sum np_sum epsilon train preds left iterations p prev) f0) = 0.
Proof using A1 A2 T Nk E Nn Lx Ux J Z0.
  revert iterations p prev. induction left as [|m IH]; intros iterations p prev F V; cbn [EM_loop_float]; [exact V|].
  destruct (_ || _); [|exact V]. apply IH; [apply step_ok; assumption|apply absent_step, F].
Qed.

End Absent.

Lemma EM_start y preds : y <> [] -> (Z.of_nat (length y) <= 2 ^ 40)%Z ->
  Forall (fun x => length x = length (np_unique y)) preds -> Forall separated preds ->
  let train := EM_train_float (np_unique y) y in
  length train = length (np_unique y) /\ (Z.of_nat (length train) <= 2 ^ 40)%Z /\ usable train /\
  Forall (fun x => length x = length train) preds /\ fine train preds train.
Proof.
  intros Ey Ny Lx Sp train.
  assert (Lt : length train = length (np_unique y)) by (unfold train, EM_train_float; apply map_length).
  assert (Nk : (Z.of_nat (length train) <= 2 ^ 40)%Z).
  { rewrite Lt. assert (length (np_unique y) <= length y)%nat; [|lia]. apply NoDup_incl_length; [apply np_unique_NoDup|]. intros c I. apply np_unique_in, I. }
  assert (T : usable train) by (apply EM_train_usable; [exact Ey|lia|intros c I; apply np_unique_in, I]).
  assert (Lx' : Forall (fun x => length x = length train) preds) by (eapply Forall_impl; [|exact Lx]; intros x ->; lia).
  assert (Ut : Forall in_unit train) by (apply EM_train_units; [exact Ey|unfold small; lia]).
  split; [exact Lt|]. split; [exact Nk|]. split; [exact T|]. split; [exact Lx'|].
  split; [reflexivity|]. split; [exact Ut|]. apply Forall_forall. intros x I. rewrite Forall_forall in Sp, Lx'. destruct (Sp x I) as (q & Hq & Ex & Se).
  exists q. split; [exact Hq|]. split; [exact Se|]. apply Exists_exists in Ex. destruct Ex as (z & Iz & Bz).
  apply (In_nth _ _ f0) in Iz. destruct Iz as (j & J & <-). exists j. split; [exact J|]. split; [exact Bz|].
  rewrite (Lx' x I) in J. destruct (Forall_nth_in _ train j f0 T J) as (_ & B & _). apply Rle_trans with (2 := B). apply bpow_le. lia.
Qed.

Lemma EM_absent axis_sum np_sum epsilon max_iter y preds j : adds_in_some_order axis_sum -> adds_in_some_order np_sum ->
  y <> [] -> (Z.of_nat (length y) <= 2 ^ 40)%Z -> preds <> [] -> (Z.of_nat (length preds) <= 2 ^ 50)%Z ->
  Forall (fun x => length x = length (np_unique y)) preds -> Forall (Forall in_unit) preds -> Forall separated preds ->
  (0 < max_iter)%nat -> (j < length (np_unique y))%nat -> Forall (fun x => val (nth j x f0) = 0) preds ->
  val (nth j (EM_float axis_sum np_sum epsilon max_iter (EM_train_float (np_unique y) y) preds) f0) = 0.
Proof.
  intros A1 A2 Ey Ny Ep Np Lx Ux Sp Mi J Zj.
  destruct (EM_start y preds Ey Ny Lx Sp) as (Lt & Nk & T & Lx' & F0). set (train := EM_train_float (np_unique y) y) in *.
  unfold EM_float. destruct max_iter as [|m]; [lia|]. cbn [EM_loop_float Nat.ltb Nat.leb]. rewrite orb_true_r.
  rewrite <- Lt in J. apply absent_loop; try assumption; [apply step_ok; assumption|apply absent_step; assumption].
Qed.

(** ** Without large entries the products can vanish *)

Definition tiny : float := fdiv (fdiv f1 (of_Z (2 ^ 1000))) (of_Z (2 ^ 74)).
Definition vanishing_y : list Z := [0; 0; 0; 0; 0; 0; 0; 0; 0; 1]%Z.
Definition vanishing : list (list float) := [[tiny; f0]; [f0; f1]; [f0; f1]].

Lemma EM_refuted : exists y preds, y <> [] /\ preds <> [] /\ Forall (fun x => length x = length (np_unique y)) preds /\
  Forall (Forall in_unit) preds /\ Forall (Exists (fun x => 0 < val x)) preds /\
  forall j, (j < 2)%nat -> is_nan (nth j (EM_float numpy_sum numpy_sum (ratio 1 10000) 1000 (EM_train_float (np_unique y) y) preds) f0) = true.
Proof.
  exists vanishing_y, vanishing. split; [discriminate|]. split; [discriminate|].
  assert (Ft : is_finite tiny = true) by (vm_compute; reflexivity).
  assert (P : 0 < val tiny). { destruct f0_ok as (_ & <-). apply flt_val; [reflexivity|exact Ft|vm_compute; reflexivity]. }
  assert (L1 : val tiny < 1). { destruct f1_ok as (_ & <-). apply flt_val; [exact Ft|reflexivity|vm_compute; reflexivity]. }
  assert (Ut : in_unit tiny) by (split; [exact Ft|lra]).
  assert (P1 : 0 < val f1) by (destruct f1_ok as (_ & ->); lra).
  split; [repeat (apply Forall_cons; [reflexivity|]); constructor|].
  split. { pose proof f0_unit. pose proof f1_unit. repeat (apply Forall_cons; [apply Forall_cons; [assumption|apply Forall_cons; [assumption|constructor]]|]). constructor. }
  split. { apply Forall_cons; [left; exact P|]. apply Forall_cons; [right; left; exact P1|]. apply Forall_cons; [right; left; exact P1|constructor]. }
  intros [|[|j]] J; [| |lia]; vm_compute; reflexivity.
Qed.
