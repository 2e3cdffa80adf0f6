(** * Double precision: what the machine gets wrong. *)

From Coq Require Import Reals ZArith List Bool Lia Lra Permutation.
From Flocq Require Import Core BinarySingleNaN.
From Verif Require Import Num L_Num Spec M_Baselines L_Baselines M_Float Spec_Float L_Float L_Float2 L_Float3 L_Float4 M_Float2 L_Float5 L_Float6 L_Float7 M_Float3.
Import ListNotations.
Open Scope R_scope.

(** k/n *)
Definition ratio (k n : Z) : float := fdiv (of_Z k) (of_Z n).

Lemma ratio_unit k n : (0 <= k <= n)%Z -> (0 < n <= 2 ^ 53)%Z -> in_unit (ratio k n) /\ val (ratio k n) = nearest (IZR k / IZR n).
Proof.
  intros K N. destruct (of_Z_ok k ltac:(lia)) as (Fk & Vk). destruct (of_Z_ok n ltac:(lia)) as (Fn & Vn).
  rewrite <- Vk, <- Vn. apply fdiv_unit; [exact Fk|exact Fn| |].
  - rewrite Vk, Vn. split; apply IZR_le; lia.
  - rewrite Vn. apply IZR_lt. lia.
Qed.

Lemma flt_val x y : is_finite x = true -> is_finite y = true -> flt x y = true -> val x < val y.
Proof. intros Fx Fy H. apply flt_ok; assumption. Qed.

(** The mean of three equal numbers. *)
Lemma mean_equal_refuted : exists x, in_unit x /\ val (fmean numpy_sum [x; x; x]) <> val x.
Proof.
  exists (ratio 1 10). split; [apply ratio_unit; lia|]. apply Rgt_not_eq. apply flt_val; vm_compute; reflexivity.
Qed.

(** 1/6 + 4/6 + 1/6 *)
Lemma CC_sum_refuted : exists classes preds, NoDup classes /\ preds <> [] /\ (forall z, In z preds -> In z classes) /\
  val (numpy_sum (CC_float classes preds)) <> 1.
Proof.
  exists [0; 1; 2]%Z, [0; 1; 1; 1; 1; 2]%Z. split; [|split; [discriminate|split]].
  - repeat constructor; cbn; intuition lia.
  - cbn. intuition.
  - apply Rlt_not_eq. destruct f1_ok as (_ & <-). apply flt_val; vm_compute; reflexivity.
Qed.

(** Two examples with probabilities (0.3, 0.7) and (0.4, 0.6). *)
Lemma PCC_sum_refuted : exists rows, rows <> [] /\ Forall (fun r => exists p q, r = [p; q] /\ complementary p q) rows /\
  val (numpy_sum (PCC_float numpy_sum 2 rows)) <> 1.
Proof.
  exists [[ratio 3 10; fsub f1 (ratio 3 10)]; [ratio 4 10; fsub f1 (ratio 4 10)]]. split; [discriminate|]. split.
  - assert (C : forall x, in_unit x -> complementary x (fsub f1 x)).
    { intros x U. pose proof U as (F & B). destruct (sub_unit f1 x f1_unit U) as (G & V). destruct f1_ok as (_ & V1). rewrite V1 in V.
      assert (W : in_unit (fsub f1 x)).
      { split; [exact G|]. rewrite V. split; [apply nearest_ge_format; [apply format_0|lra]|apply nearest_le_format; [apply format_1|lra]]. }
      split; [exact U|]. split; [exact W|]. destruct (fadd_ok x _ F G) as (_ & H); [apply big4, Rabs_le; destruct W; lra|].
      rewrite H, V. pose proof (complement (val x) B) as K. rewrite (nearest_id _ (format_val x)) in K. exact K. }
    apply Forall_cons; [|apply Forall_cons; [|constructor]]; do 2 eexists; (split; [reflexivity|]); apply C, ratio_unit; lia.
  - apply Rlt_not_eq. destruct f1_ok as (_ & <-). apply flt_val; vm_compute; reflexivity.
Qed.

(** Nine classes and numpy's own order of summation. *)
Definition nine_left : list float :=
  [ratio 1 20; ratio 3 20; ratio 1 4; ratio 3 10; ratio 7 20; ratio 2 5; ratio 9 20; f1].
Lemma nine_left_unit : Forall in_unit nine_left.
Proof. repeat (apply Forall_cons; [apply ratio_unit; lia|]). apply Forall_cons; [apply f1_unit|constructor]. Qed.
Lemma nine_left_ascending : fascending nine_left = true.
Proof. vm_compute. reflexivity. Qed.
Lemma nine_negative : exists p, FHQ_float numpy_sum nine_left = Val p /\ val (nth 8 p f0) < 0.
Proof.
  eexists. split; [reflexivity|]. destruct f0_ok as (_ & <-). apply flt_val; vm_compute; reflexivity.
Qed.

(** Rates 999/1000 and 1: their difference is 0.001, which does not exceed 0.001, but in doubles it does. *)
Definition tie_y : list Z := repeat 0%Z 1000 ++ [1%Z].
Definition tie_train : list Z := repeat 1%Z 999 ++ [0; 1]%Z.
Definition tie_test : list Z := [0; 1; 1]%Z.

Lemma tie_unique : np_unique tie_y = [0; 1]%Z.
Proof. vm_compute. reflexivity. Qed.

Lemma tie_fit : AC_fit tie_y tie_train = Val [Some [INR 1 / INR 1000; INR 999 / INR 1000]; Some [INR 0 / INR 1; INR 1 / INR 1]].
Proof.
  unfold AC_fit. rewrite tie_unique.
  replace (y_ext tie_y (length tie_train)) with tie_y by (vm_compute; reflexivity).
  replace (Nat.eqb (length tie_y) (length tie_train)) with true by (vm_compute; reflexivity).
  apply f_equal. unfold confusion. cbn [map].
  replace (pair_count 0 0 tie_y tie_train) with 1%nat by (vm_compute; reflexivity).
  replace (pair_count 0 1 tie_y tie_train) with 999%nat by (vm_compute; reflexivity).
  replace (pair_count 1 0 tie_y tie_train) with 0%nat by (vm_compute; reflexivity).
  replace (pair_count 1 1 tie_y tie_train) with 1%nat by (vm_compute; reflexivity).
  unfold norm_row. 
  assert (E1 : rsum [INR 1; INR 999] = INR 1000) by (cbn [rsum]; rewrite !INR_IZR_INZ; cbn; lra).
  assert (E2 : rsum [INR 0; INR 1] = INR 1) by (cbn; lra).
  rewrite E1, E2.
  destruct (Req_EM_T (INR 1000) 0) as [Z|_]; [rewrite INR_IZR_INZ in Z; apply (eq_IZR _ 0) in Z; discriminate|].
  destruct (Req_EM_T (INR 1) 0) as [Z|_]; [cbn in Z; lra|]. reflexivity.
Qed.

Lemma tie_refuted : exists y preds_train preds cm p, np_unique y = [0; 1]%Z /\ AC_fit y preds_train = Val cm /\
  (forall solv dist, AC_predict solv dist [0; 1]%Z cm preds = Val p) /\
  nth 1 p 0 = 2/3 /\ val (nth 1 (AC_float numpy_sum 0 1 (y_ext y (length preds_train)) preds_train preds) f0) = 0.
Proof.
  exists tie_y, tie_train, tie_test. do 2 eexists. split; [exact tie_unique|]. split; [exact tie_fit|]. split; [intros; reflexivity|]. split.
  - unfold binary_adjust. cbn [map nth].
    assert (E : INR 1 / INR 1 - INR 999 / INR 1000 = 1/1000).
    { rewrite !INR_IZR_INZ. change (Z.of_nat 1) with 1%Z. change (Z.of_nat 999) with 999%Z. change (Z.of_nat 1000) with 1000%Z. lra. }
    rewrite E, (Rabs_pos_eq (1/1000)) by lra. destruct (Rlt_dec (1/1000) (1/1000)) as [L|_]; [lra|].
    change (zcount 0 tie_test) with 1%nat. change (zcount 1 tie_test) with 2%nat. cbn [length tie_test].
    assert (A : INR 1 / INR 3 = 1/3) by (cbn; lra). assert (B : INR 2 / INR 3 = 2/3) by (cbn; lra). cbn [map]. change (length tie_test) with 3%nat. rewrite A, B.
    rewrite !clip01_id by lra. assert (RS : rsum [1/3; 2/3] = 1) by (cbn; lra). rewrite RS. destruct (Rlt_dec 0 1) as [_|N]; [|lra].
    rewrite vdiv_1. reflexivity.
  - replace (nth 1 (AC_float numpy_sum 0 1 (y_ext tie_y (length tie_train)) tie_train tie_test) f0) with f0; [apply f0_ok|].
    apply B2SF_inj. vm_compute. reflexivity.
Qed.

(** ** Statements of the property file *)

Lemma CC_float_rounded classes preds i : (i < length classes)%nat -> preds <> [] -> small (length preds) ->
  in_unit (nth i (CC_float classes preds) f0) /\
  val (nth i (CC_float classes preds) f0) = nearest (fraction (nth i classes 0%Z) preds) /\
  Rabs (val (nth i (CC_float classes preds) f0) - fraction (nth i classes 0%Z) preds) <= bpow radix2 (-54).
Proof.
  intros I Ne N. destruct (CC_float_nth classes preds i I Ne N) as (U & V). split; [exact U|]. split; [exact V|]. rewrite V.
  apply frac_error; [apply zcount_le|destruct preds; [congruence|cbn; lia]].
Qed.

Lemma CC_float_order classes preds i j : (i < length classes)%nat -> (j < length classes)%nat -> preds <> [] ->
  (Z.of_nat (length preds) < 2 ^ 53)%Z ->
  (val (nth i (CC_float classes preds) f0) < val (nth j (CC_float classes preds) f0) <->
     (zcount (nth i classes 0%Z) preds < zcount (nth j classes 0%Z) preds)%nat) /\
  (val (nth i (CC_float classes preds) f0) = val (nth j (CC_float classes preds) f0) <->
     zcount (nth i classes 0%Z) preds = zcount (nth j classes 0%Z) preds).
Proof.
  intros I J Ne N. assert (N' : small (length preds)) by (unfold small; lia).
  destruct (CC_float_nth classes preds i I Ne N') as (_ & ->). destruct (CC_float_nth classes preds j J Ne N') as (_ & ->).
  assert (P : (0 < length preds)%nat) by (destruct preds; [congruence|cbn; lia]).
  split; [apply frac_lt_iff|apply frac_eq_iff]; try apply zcount_le; assumption.
Qed.

Lemma PCC_float_accuracy np_sum k rows j : adds_in_some_order np_sum -> rows <> [] -> Forall (Forall in_unit) rows ->
  (Z.of_nat (length rows) <= 2 ^ 50)%Z -> (j < k)%nat ->
  in_unit (nth j (PCC_float np_sum k rows) f0) /\
  Rabs (val (nth j (PCC_float np_sum k rows) f0) - exact_mean (fcol j rows)) <= INR (length rows + 1) * bpow radix2 (-52).
Proof.
  intros A Ne U N J. assert (N' : small (length rows)) by (unfold small; lia).
  destruct (PCC_float_nth np_sum k rows j A Ne U N' J) as (V & _). split; [exact V|].
  assert (E : nth j (PCC_float np_sum k rows) f0 = fmean np_sum (fcol j rows)).
  { unfold PCC_float. set (g := fun j0 : nat => fmean np_sum (fcol j0 rows)).
    rewrite (nth_indep _ f0 (g 0%nat)) by (rewrite map_length, seq_length; exact J). rewrite map_nth, seq_nth by exact J. reflexivity. }
  rewrite E. pose proof (fmean_error np_sum (fcol j rows) A) as F. rewrite fcol_length in F. apply F.
  - intros H. apply (f_equal (@length _)) in H. rewrite fcol_length in H. destruct rows; [congruence|discriminate].
  - apply fcol_unit, U.
  - exact N.
Qed.

Lemma fascending_nth l : Forall finite l -> fascending l = true -> forall i, (S i < length l)%nat -> val (nth i l f0) <= val (nth (S i) l f0).
Proof.
  induction 1 as [|a t Fa Ft IH]; intros A i L; [cbn in L; lia|]. destruct t as [|b t]; [cbn in L; lia|].
  inversion Ft as [|? ? Fb _]; subst. cbn [fascending] in A. destruct (fle a b) eqn:Q; [|discriminate].
  destruct i; [cbn; apply fle_ok; assumption|]. apply (IH A i). cbn in L |- *. lia.
Qed.

From Verif Require Import M_Ordinal.
Lemma fcorrect_spec l : Forall in_unit l ->
  Forall in_unit (fcorrect_asc l) /\
  (forall i, (S i < length l)%nat -> val (nth i (fcorrect_asc l) f0) <= val (nth (S i) (fcorrect_asc l) f0)) /\
  within (bpow radix2 (-52)) (fcorrect_asc l) (correct_asc (map val l)).
Proof.
  intros U. destruct (fcorrect_ok l U) as (A & B). split; [exact A|]. split; [|exact B].
  intros i L. apply fascending_nth; [apply units_finite, A|apply fcorrect_ascending, U|rewrite fcorrect_length; exact L].
Qed.

Lemma nine_refuted : exists left p, Forall in_unit left /\
  (forall i, (S i < length left)%nat -> val (nth i left f0) <= val (nth (S i) left f0)) /\
  FHQ_float numpy_sum left = Val p /\ val (last p f0) < 0.
Proof.
  exists nine_left. eexists. split; [apply nine_left_unit|]. split; [apply fascending_nth; [apply units_finite, nine_left_unit|apply nine_left_ascending]|].
  split; [reflexivity|]. destruct f0_ok as (_ & <-). apply flt_val; vm_compute; reflexivity.
Qed.
