(** * Sums, means and binary quantifiers in double precision. *)

From Coq Require Import Reals ZArith List Permutation Lia Lra Bool Psatz.
From Flocq Require Import Core BinarySingleNaN Relative Plus_error.
From Verif Require Import Num M_Baselines M_Float Spec_Float L_Float.
Import ListNotations.
Open Scope R_scope.

Lemma small_le m n : (m <= n)%nat -> small n -> small m.
Proof. unfold small. lia. Qed.

Lemma INR_small n : small n -> INR n <= IZR (2 ^ 53).
Proof. unfold small. intros H. rewrite INR_IZR_INZ. apply IZR_le, H. Qed.

Lemma format_INR n : small n -> format (INR n).
Proof. intros H. rewrite INR_IZR_INZ. apply format_Z. unfold small in H. lia. Qed.

Lemma Rdiv_le_0_compat a b : 0 <= a -> 0 < b -> 0 <= a / b.
Proof. intros A B. unfold Rdiv. apply Rmult_le_pos; [exact A|]. left. apply Rinv_0_lt_compat, B. Qed.

(** ** Sums in any order *)

(** Non-negative doubles up to 2^e. *)
Definition bounded (e : Z) (x : float) : Prop := finite x /\ 0 <= val x <= bpow radix2 e.

Lemma in_unit_bounded x : in_unit x <-> bounded 0 x.
Proof. unfold in_unit, bounded. cbn. tauto. Qed.

Lemma Forall_unit_bounded l : Forall in_unit l <-> Forall (bounded 0) l.
Proof. split; intros H; eapply Forall_impl; try exact H; intros a; apply in_unit_bounded. Qed.

Lemma format_multiple n e : small n -> (-1074 <= e)%Z -> format (INR n * bpow radix2 e).
Proof. intros N E. rewrite INR_IZR_INZ. apply format_scaled; [unfold small in N; lia|exact E]. Qed.

Lemma multiple_big n e : small n -> (e <= 900)%Z -> INR n * bpow radix2 e <= bpow radix2 1000.
Proof.
  intros N E. apply Rle_trans with (bpow radix2 53 * bpow radix2 900).
  - apply Rmult_le_compat; [apply pos_INR|apply bpow_ge_0| |apply bpow_le, E].
    change (bpow radix2 53) with (IZR (2 ^ 53)). apply INR_small, N.
  - rewrite <- bpow_plus. apply bpow_le. lia.
Qed.

Section Sums.
Variable e : Z.
Hypothesis Elo : (-1074 <= e)%Z.
Hypothesis Ehi : (e <= 900)%Z.

Lemma summed_range_gen l s : summed l s -> Forall (bounded e) l -> small (length l) ->
  finite s /\ 0 <= val s <= INR (length l) * bpow radix2 e.
Proof using Elo Ehi.
  induction 1 as [|x|l1 l2 l x y S1 IH1 S2 IH2 P]; intros U N.
  - destruct f0_ok as (A & B). split; [exact A|]. rewrite B. cbn. lra.
  - inversion U as [|? ? (A & B) _]; subst. split; [exact A|]. cbn. lra.
  - assert (U' : Forall (bounded e) (l1 ++ l2)) by (apply (Permutation_Forall P), U).
    apply Forall_app in U'. destruct U' as (U1 & U2). pose proof (Permutation_length P) as E. rewrite app_length in E.
    destruct IH1 as (F1 & B1); [exact U1|revert N; apply small_le; lia|].
    destruct IH2 as (F2 & B2); [exact U2|revert N; apply small_le; lia|].
    assert (D : val x + val y <= INR (length l) * bpow radix2 e) by (rewrite E, plus_INR; lra).
    pose proof (multiple_big _ e N Ehi) as M.
    destruct (fadd_ok x y F1 F2) as (F & V).
    + rewrite Rabs_pos_eq by lra. lra.
    + split; [exact F|]. rewrite V. split.
      * apply nearest_ge_format; [apply format_0|lra].
      * apply nearest_le_format; [apply format_multiple; assumption|exact D].
Qed.

Lemma summed_step l1 l2 l x y : summed l1 x -> summed l2 y -> Permutation l (l1 ++ l2) -> Forall (bounded e) l -> small (length l) ->
  Forall (bounded e) l1 /\ Forall (bounded e) l2 /\ small (length l1) /\ small (length l2) /\ length l = (length l1 + length l2)%nat /\
  0 <= val x /\ 0 <= val y /\ val (fadd x y) = nearest (val x + val y).
Proof using Elo Ehi.
  intros S1 S2 P U N. assert (U' : Forall (bounded e) (l1 ++ l2)) by (apply (Permutation_Forall P), U).
  apply Forall_app in U'. destruct U' as (U1 & U2). pose proof (Permutation_length P) as E. rewrite app_length in E.
  assert (N1 : small (length l1)) by (revert N; apply small_le; lia).
  assert (N2 : small (length l2)) by (revert N; apply small_le; lia).
  destruct (summed_range_gen _ _ S1 U1 N1) as (F1 & B1). destruct (summed_range_gen _ _ S2 U2 N2) as (F2 & B2).
  assert (D : val x + val y <= INR (length l) * bpow radix2 e) by (rewrite E, plus_INR; lra).
  pose proof (multiple_big _ e N Ehi) as M.
  destruct (fadd_ok x y F1 F2) as (F & V); [rewrite Rabs_pos_eq; lra|].
  repeat (split; [first [assumption | lra]|]). exact V.
Qed.

Lemma summed_ge_gen l s : summed l s -> Forall (bounded e) l -> small (length l) -> forall z, In z l -> val z <= val s.
Proof using Elo Ehi.
  induction 1 as [|x|l1 l2 l x y S1 IH1 S2 IH2 P]; intros U N z I.
  - destruct I.
  - destruct I as [->|[]]. lra.
  - destruct (summed_step _ _ _ _ _ S1 S2 P U N) as (U1 & U2 & N1 & N2 & E & X & Y & V).
    rewrite V. assert (I' : In z (l1 ++ l2)) by (apply (Permutation_in _ P), I). apply in_app_or in I'.
    apply nearest_ge_format; [apply format_val|].
    destruct I' as [I'|I']; [specialize (IH1 U1 N1 _ I')|specialize (IH2 U2 N2 _ I')]; lra.
Qed.

Lemma summed_few_gen l s : summed l s -> Forall (bounded e) l -> small (length l) ->
  (l = [] -> val s = 0) /\ (forall x, l = [x] -> val s = val x) /\
  (forall x y, Permutation l [x; y] -> val s = nearest (val x + val y)).
Proof using Elo Ehi.
  induction 1 as [|x0|l1 l2 l x0 y0 S1 IH1 S2 IH2 P]; intros U N.
  - split; [intros _; apply f0_ok|]. split; [intros x H; discriminate H|].
    intros x y H. apply Permutation_nil in H. discriminate H.
  - split; [intros H; discriminate H|]. split; [intros x H; injection H as ->; reflexivity|].
    intros x y H. apply Permutation_length in H. discriminate H.
  - destruct (summed_step _ _ _ _ _ S1 S2 P U N) as (U1 & U2 & N1 & N2 & E & X & Y & V).
    rewrite V. destruct (IH1 U1 N1) as (A0 & A1 & A2). destruct (IH2 U2 N2) as (C0 & C1 & C2).
    split; [|split].
    + intros ->. cbn in E. destruct l1; [|discriminate]. destruct l2; [|discriminate].
      rewrite A0, C0 by reflexivity. rewrite Rplus_0_r. apply nearest_0.
    + intros x ->. cbn in E. apply Permutation_length_1_inv in P.
      destruct l1 as [|a l1].
      * cbn in P. rewrite (A0 eq_refl), (C1 _ P). rewrite Rplus_0_l. apply nearest_id, format_val.
      * destruct l1; [|discriminate]. destruct l2; [|discriminate]. injection P as ->.
        rewrite (C0 eq_refl), (A1 _ eq_refl). rewrite Rplus_0_r. apply nearest_id, format_val.
    + intros x y Q. assert (P' : Permutation (l1 ++ l2) [x; y]) by (rewrite <- P; exact Q).
      assert (L : (length l1 + length l2 = 2)%nat) by (rewrite <- app_length, (Permutation_length P'); reflexivity).
      destruct l1 as [|a l1].
      * cbn in P'. rewrite (A0 eq_refl), (C2 _ _ P'). rewrite Rplus_0_l. apply nearest_id, nearest_format.
      * destruct l1 as [|b l1].
        -- destruct l2 as [|b l2]; [discriminate|]. destruct l2; [|discriminate]. cbn in P'.
           rewrite (A1 _ eq_refl), (C1 _ eq_refl). symmetry in P'. apply Permutation_length_2_inv in P'.
           destruct P' as [P'|P']; injection P' as -> ->; [reflexivity|f_equal; ring].
        -- destruct l2; [|cbn in L; lia]. rewrite app_nil_r in P'.
           rewrite (C0 eq_refl), (A2 _ _ P'). rewrite Rplus_0_r. apply nearest_id, nearest_format.
Qed.
End Sums.

Lemma summed_range l s : summed l s -> Forall in_unit l -> small (length l) -> finite s /\ 0 <= val s <= INR (length l).
Proof.
  intros H U N. destruct (summed_range_gen 0 ltac:(lia) ltac:(lia) l s H) as (F & B); [apply Forall_unit_bounded, U|exact N|].
  split; [exact F|]. change (bpow radix2 0) with 1 in B. lra.
Qed.

Lemma summed_ge l s : summed l s -> Forall in_unit l -> small (length l) -> forall z, In z l -> val z <= val s.
Proof. intros H U N. apply (summed_ge_gen 0 ltac:(lia) ltac:(lia) l s H); [apply Forall_unit_bounded, U|exact N]. Qed.

Lemma summed_few l s : summed l s -> Forall in_unit l -> small (length l) ->
  (l = [] -> val s = 0) /\ (forall x, l = [x] -> val s = val x) /\
  (forall x y, Permutation l [x; y] -> val s = nearest (val x + val y)).
Proof. intros H U N. apply (summed_few_gen 0 ltac:(lia) ltac:(lia) l s H); [apply Forall_unit_bounded, U|exact N]. Qed.

Lemma sum_two np_sum x y : adds_in_some_order np_sum -> in_unit x -> in_unit y ->
  finite (np_sum [x; y]) /\ val (np_sum [x; y]) = nearest (val x + val y).
Proof.
  intros A X Y.
  assert (U : Forall in_unit [x; y]) by (constructor; [exact X|constructor; [exact Y|constructor]]).
  assert (N : small (length [x; y])) by (unfold small; cbn; lia).
  split; [apply (summed_range _ _ (A [x; y]) U N)|]. apply (summed_few _ _ (A [x; y]) U N). reflexivity.
Qed.

(** ** Division by something larger *)

Lemma fdiv_unit x s : finite x -> finite s -> 0 <= val x <= val s -> 0 < val s ->
  in_unit (fdiv x s) /\ val (fdiv x s) = nearest (val x / val s).
Proof.
  intros X S B P.
  assert (Q : 0 <= val x / val s <= 1).
  { split; [apply Rdiv_le_0_compat; lra|]. apply Rmult_le_reg_r with (1 := P). unfold Rdiv. rewrite Rmult_assoc, Rinv_l by lra. lra. }
  destruct (fdiv_ok x s X) as (F & V); [lra|apply big4; rewrite Rabs_pos_eq; lra|].
  split; [|exact V]. split; [exact F|]. rewrite V. split.
  - apply nearest_ge_format; [apply format_0|lra].
  - apply nearest_le_format; [apply format_1|lra].
Qed.

Lemma fmean_unit np_sum l : adds_in_some_order np_sum -> l <> [] -> Forall in_unit l -> small (length l) ->
  in_unit (fmean np_sum l) /\ val (fmean np_sum l) = nearest (val (np_sum l) / INR (length l)).
Proof.
  intros A E U N. destruct (summed_range _ _ (A l) U N) as (F & B). destruct (of_nat_ok _ N) as (F' & V).
  assert (P : 0 < INR (length l)) by (apply lt_0_INR; destruct l; [congruence|cbn; lia]).
  unfold fmean. destruct (fdiv_unit (np_sum l) (of_nat (length l)) F F') as (G & W); [rewrite V; lra|rewrite V; lra|].
  split; [exact G|]. rewrite W, V. reflexivity.
Qed.

(** ** Fractions: CC *)

Lemma frac_val k n : (k <= n)%nat -> (0 < n)%nat -> small n ->
  in_unit (fdiv (of_nat k) (of_nat n)) /\ val (fdiv (of_nat k) (of_nat n)) = nearest (INR k / INR n).
Proof.
  intros L P N. destruct (of_nat_ok n N) as (F & V).
  destruct (of_nat_ok k (small_le _ _ L N)) as (F' & V').
  destruct (fdiv_unit (of_nat k) (of_nat n) F' F) as (G & W).
  - rewrite V, V'. split; [apply pos_INR|apply le_INR, L].
  - rewrite V. apply lt_0_INR, P.
  - split; [exact G|]. rewrite W, V, V'. reflexivity.
Qed.

Lemma frac_range k n : (k <= n)%nat -> (0 < n)%nat -> 0 <= INR k / INR n <= 1.
Proof.
  intros L P. assert (0 < INR n) by (apply lt_0_INR, P). assert (INR k <= INR n) by (apply le_INR, L). pose proof (pos_INR k).
  split; [apply Rdiv_le_0_compat; lra|]. apply Rmult_le_reg_r with (INR n); [lra|]. unfold Rdiv. rewrite Rmult_assoc, Rinv_l by lra. lra.
Qed.

Lemma frac_error k n : (k <= n)%nat -> (0 < n)%nat -> Rabs (nearest (INR k / INR n) - INR k / INR n) <= bpow radix2 (-54).
Proof. intros L P. pose proof (frac_range k n L P). apply nearest_error_unit. rewrite Rabs_pos_eq; lra. Qed.

Lemma inv_small n : (0 < n)%nat -> (Z.of_nat n < 2 ^ 53)%Z -> bpow radix2 (-53) < / INR n.
Proof.
  intros P N. change (-53)%Z with (- (53))%Z. rewrite bpow_opp. apply Rinv_lt_contravar.
  - apply Rmult_lt_0_compat; [apply lt_0_INR, P|apply bpow_gt_0].
  - rewrite INR_IZR_INZ. change (bpow radix2 53) with (IZR (2 ^ 53)). apply IZR_lt, N.
Qed.

(** Different counts give different fractions. *)
Lemma frac_lt k k' n : (k < k')%nat -> (k' <= n)%nat -> (Z.of_nat n < 2 ^ 53)%Z -> nearest (INR k / INR n) < nearest (INR k' / INR n).
Proof.
  intros L M N. assert (P : (0 < n)%nat) by lia.
  pose proof (frac_error k n) as E1. pose proof (frac_error k' n) as E2.
  specialize (E1 ltac:(lia) P). specialize (E2 ltac:(lia) P). apply Rabs_le_inv in E1, E2.
  pose proof (inv_small n P N) as I.
  assert (B : bpow radix2 (-53) = 2 * bpow radix2 (-54)).
  { change (bpow radix2 (-53)) with (bpow radix2 (1 + -54)). rewrite bpow_plus. reflexivity. }
  assert (D : INR k / INR n + / INR n <= INR k' / INR n).
  { unfold Rdiv. assert (INR k + 1 <= INR k') by (rewrite <- S_INR; apply le_INR; lia).
    assert (0 < / INR n) by (apply Rinv_0_lt_compat, lt_0_INR, P). nra. }
  lra.
Qed.

Lemma frac_lt_iff k k' n : (k <= n)%nat -> (k' <= n)%nat -> (0 < n)%nat -> (Z.of_nat n < 2 ^ 53)%Z ->
  nearest (INR k / INR n) < nearest (INR k' / INR n) <-> (k < k')%nat.
Proof.
  intros K K' P N. split; intros H; [|apply frac_lt; assumption].
  destruct (Nat.lt_total k k') as [L|[->|L]]; [exact L|lra|].
  pose proof (frac_lt k' k n L K N). lra.
Qed.

Lemma frac_eq_iff k k' n : (k <= n)%nat -> (k' <= n)%nat -> (0 < n)%nat -> (Z.of_nat n < 2 ^ 53)%Z ->
  nearest (INR k / INR n) = nearest (INR k' / INR n) <-> k = k'.
Proof.
  intros K K' P N. split; [|intros ->; reflexivity].
  intros E. destruct (Nat.lt_total k k') as [L|[L|L]]; [|exact L|].
  - pose proof (frac_lt k k' n L K' N). lra.
  - pose proof (frac_lt k' k n L K N). lra.
Qed.

Lemma zcount_le c l : (zcount c l <= length l)%nat.
Proof. unfold zcount. apply count_occ_bound. Qed.

Lemma CC_float_nth classes preds i : (i < length classes)%nat -> preds <> [] -> small (length preds) ->
  in_unit (nth i (CC_float classes preds) f0) /\
  val (nth i (CC_float classes preds) f0) = nearest (INR (zcount (nth i classes 0%Z) preds) / INR (length preds)).
Proof.
  intros I E N. unfold CC_float.
  rewrite (nth_indep _ f0 (fdiv (of_nat (zcount 0%Z preds)) (of_nat (length preds)))) by (rewrite map_length; exact I).
  rewrite (map_nth (fun c => fdiv (of_nat (zcount c preds)) (of_nat (length preds)))).
  apply frac_val; [apply zcount_le|destruct preds; [congruence|cbn; lia]|exact N].
Qed.

Lemma frac_complement k n : (k <= n)%nat -> (0 < n)%nat -> small n ->
  complementary (fdiv (of_nat (n - k)) (of_nat n)) (fdiv (of_nat k) (of_nat n)).
Proof.
  intros L P N. destruct (frac_val k n L P N) as (U & V).
  destruct (frac_val (n - k) n ltac:(lia) P N) as (U' & V').
  split; [exact U'|]. split; [exact U|].
  assert (G : 0 < INR n) by (apply lt_0_INR, P).
  destruct U as (F & B). destruct U' as (F' & B').
  destruct (fadd_ok _ _ F' F) as (_ & ->); [apply big4; rewrite Rabs_pos_eq; lra|].
  rewrite V, V'. rewrite minus_INR by exact L. replace ((INR n - INR k) / INR n) with (1 - INR k / INR n) by (field; lra).
  rewrite Rplus_comm. apply complement. apply frac_range; assumption.
Qed.

Lemma zcount_two c0 c1 l : c0 <> c1 -> (forall z, In z l -> z = c0 \/ z = c1) -> zcount c0 l = (length l - zcount c1 l)%nat.
Proof.
  intros D. unfold zcount. induction l as [|a l IH]; intros H; [reflexivity|].
  specialize (IH (fun z I => H z (or_intror I))). pose proof (count_occ_bound Z.eq_dec c1 l) as B.
  cbn [count_occ length]. destruct (H a (or_introl eq_refl)) as [->| ->].
  - destruct (Z.eq_dec c0 c0); [|congruence]. destruct (Z.eq_dec c0 c1); [congruence|]. lia.
  - destruct (Z.eq_dec c1 c0); [congruence|]. destruct (Z.eq_dec c1 c1); [|congruence]. lia.
Qed.

Lemma CC_float_two c0 c1 preds : c0 <> c1 -> (forall z, In z preds -> z = c0 \/ z = c1) -> preds <> [] -> small (length preds) ->
  exists p q, CC_float [c0; c1] preds = [p; q] /\ complementary p q.
Proof.
  intros D H E N. unfold CC_float. cbn [map]. rewrite (zcount_two c0 c1 preds D H). do 2 eexists. split; [reflexivity|].
  apply frac_complement; [apply zcount_le|destruct preds; [congruence|cbn; lia]|exact N].
Qed.
