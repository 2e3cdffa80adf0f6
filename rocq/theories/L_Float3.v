(** * Binary quantifiers in double precision. *)

From Coq Require Import Reals ZArith List Permutation Lia Lra Bool Psatz.
From Flocq Require Import Core BinarySingleNaN Relative Plus_error.
From Verif Require Import Num M_Baselines M_Float Spec_Float L_Float L_Float2.
Import ListNotations.
Open Scope R_scope.

Lemma finite_not_nan x : finite x -> is_nan x = false.
Proof. unfold finite. destruct x; cbn; congruence. Qed.

Lemma fclip_ok x : finite x -> finite (fclip x) /\ val (fclip x) = clip01 (val x).
Proof.
  intros F. destruct f0_ok as (F0 & V0). destruct f1_ok as (F1 & V1).
  assert (A : finite (fmax x f0) /\ val (fmax x f0) = Rmax (val x) 0).
  { unfold fmax. rewrite (finite_not_nan _ F), (finite_not_nan _ F0). destruct (flt x f0) eqn:E.
    - apply flt_ok in E; [|assumption..]. rewrite V0 in E. split; [exact F0|]. rewrite V0, Rmax_right; lra.
    - apply flt_false in E; [|assumption..]. rewrite V0 in E. split; [exact F|]. rewrite Rmax_left; lra. }
  destruct A as (A1 & A2). unfold fclip, fmin. rewrite (finite_not_nan _ A1), (finite_not_nan _ F1). unfold clip01. rewrite <- A2.
  destruct (flt f1 (fmax x f0)) eqn:E.
  - apply flt_ok in E; [|assumption..]. rewrite V1 in E. split; [exact F1|]. rewrite V1, Rmin_right; lra.
  - apply flt_false in E; [|assumption..]. rewrite V1 in E. split; [exact A1|]. rewrite Rmin_left; lra.
Qed.

Lemma fclip_unit x : in_unit x -> fclip x = x.
Proof.
  intros (F & B). destruct f0_ok as (F0 & V0). destruct f1_ok as (F1 & V1).
  unfold fclip, fmax. rewrite (finite_not_nan _ F), (finite_not_nan _ F0).
  replace (flt x f0) with false by (symmetry; apply flt_false; [assumption..|rewrite V0; lra]).
  unfold fmin. rewrite (finite_not_nan _ F), (finite_not_nan _ F1).
  replace (flt f1 x) with false by (symmetry; apply flt_false; [assumption..|rewrite V1; lra]). reflexivity.
Qed.

Lemma fclip_in_unit x : finite x -> in_unit (fclip x).
Proof.
  intros F. destruct (fclip_ok x F) as (G & V). split; [exact G|]. rewrite V. unfold clip01.
  split; [apply Rmin_glb; [apply Rmax_r|lra]|apply Rmin_r].
Qed.

Lemma finf_pos : fclip (B754_infinity false) = f1.
Proof. apply B2SF_inj. vm_compute. reflexivity. Qed.
Lemma finf_neg : fclip (B754_infinity true) = f0.
Proof. apply B2SF_inj. vm_compute. reflexivity. Qed.

Lemma f0_unit : in_unit f0. Proof. destruct f0_ok as (A & B). split; [exact A|lra]. Qed.
Lemma f1_unit : in_unit f1. Proof. destruct f1_ok as (A & B). split; [exact A|lra]. Qed.

(** [1 - p] for an infinite or large [p]. *)
Lemma sub_pos_inf : fsub f1 (B754_infinity false) = B754_infinity true.
Proof. apply B2SF_inj. vm_compute. reflexivity. Qed.
Lemma sub_neg_inf : fsub f1 (B754_infinity true) = B754_infinity false.
Proof. apply B2SF_inj. vm_compute. reflexivity. Qed.

Lemma clip_above x : finite x -> 1 <= val x -> in_unit (fclip x) /\ val (fclip x) = 1.
Proof.
  intros F L. destruct (fclip_ok x F) as (G & V). split; [apply fclip_in_unit, F|]. rewrite V. unfold clip01.
  rewrite Rmax_left by lra. apply Rmin_right, L.
Qed.

Lemma clip_below x : finite x -> val x <= 0 -> in_unit (fclip x) /\ val (fclip x) = 0.
Proof.
  intros F L. destruct (fclip_ok x F) as (G & V). split; [apply fclip_in_unit, F|]. rewrite V. unfold clip01.
  rewrite Rmax_right by lra. apply Rmin_left. lra.
Qed.

Lemma sub_above p : finite p -> 1 <= val p -> in_unit (fclip (fsub f1 p)) /\ val (fclip (fsub f1 p)) = 0.
Proof.
  intros F L. destruct f1_ok as (F1 & V1).
  pose proof (Bminus_correct 53 1024 prec_pos prec_small mode_NE f1 p F1 F) as C.
  fold (val f1) (val p) (fsub f1 p) (val (fsub f1 p)) in C. rewrite V1 in C.
  destruct (Rlt_bool _ _) eqn:O in C.
  - destruct C as (C1 & C2 & _). apply clip_below; [exact C2|]. rewrite C1.
    change (nearest (1 - val p) <= 0). apply nearest_le_format; [apply format_0|lra].
  - exfalso. destruct C as (_ & C). destruct (Bsign p) eqn:S; [|vm_compute in C; discriminate C].
    destruct p as [s| s | |s m e B]; unfold val, B2R in L; cbn in S; subst; try lra.
    assert (F2R (Float radix2 (Zneg m) e) < 0) by (apply F2R_lt_0; cbn; lia). cbn [cond_Zopp Z.opp] in L. lra.
Qed.

Lemma sub_below p : finite p -> val p <= 0 -> in_unit (fclip (fsub f1 p)) /\ val (fclip (fsub f1 p)) = 1.
Proof.
  intros F L. destruct f1_ok as (F1 & V1).
  pose proof (Bminus_correct 53 1024 prec_pos prec_small mode_NE f1 p F1 F) as C.
  fold (val f1) (val p) (fsub f1 p) (val (fsub f1 p)) in C. rewrite V1 in C.
  destruct (Rlt_bool _ _) eqn:O in C.
  - destruct C as (C1 & C2 & _). apply clip_above; [exact C2|]. rewrite C1.
    change (1 <= nearest (1 - val p)). apply nearest_ge_format; [apply format_1|lra].
  - destruct C as (C & _). replace (Bsign f1) with false in C by (vm_compute; reflexivity).
    assert (E : fsub f1 p = B754_infinity false) by (apply B2SF_inj; exact C).
    rewrite E, finf_pos. split; [apply f1_unit|exact V1].
Qed.

(** ** Normalising two numbers *)

Lemma normalise_one np_sum x y : adds_in_some_order np_sum -> complementary x y ->
  exists x' y', normalise_float np_sum [x; y] = [x'; y'] /\ complementary x' y' /\ val x' = val x /\ val y' = val y.
Proof.
  intros A (X & Y & S). destruct (sum_two np_sum x y A X Y) as (F & V).
  assert (One : val (np_sum [x; y]) = 1).
  { rewrite V. destruct (fadd_ok x y (proj1 X) (proj1 Y)) as (_ & W); [|rewrite <- W; exact S].
    destruct X as (_ & X), Y as (_ & Y). apply big4. rewrite Rabs_pos_eq; lra. }
  unfold normalise_float. destruct f0_ok as (F0 & V0).
  replace (flt f0 (np_sum [x; y])) with true by (symmetry; apply flt_ok; [assumption..|rewrite V0, One; lra]).
  cbn [map].
  assert (D : forall z, in_unit z -> in_unit (fdiv z (np_sum [x; y])) /\ val (fdiv z (np_sum [x; y])) = val z).
  { intros z (Z1 & Z2). destruct (fdiv_unit z (np_sum [x; y]) Z1 F) as (G & W); [rewrite One; lra..|].
    split; [exact G|]. rewrite W, One. unfold Rdiv. rewrite Rinv_1, Rmult_1_r. apply nearest_id, format_val. }
  destruct (D x X) as (X1 & X2). destruct (D y Y) as (Y1 & Y2).
  do 2 eexists. split; [reflexivity|]. split; [|split; assumption].
  split; [exact X1|]. split; [exact Y1|].
  destruct (fadd_ok _ _ (proj1 X1) (proj1 Y1)) as (_ & W).
  - destruct X1 as (_ & X1), Y1 as (_ & Y1). apply big4. rewrite Rabs_pos_eq; lra.
  - rewrite W, X2, Y2, <- V. exact One.
Qed.

(** Any estimate [p] that is a number, also an infinite one, is turned into two prevalences. *)
Lemma adjust_complement np_sum p : adds_in_some_order np_sum -> is_nan p = false ->
  exists x y, normalise_float np_sum (map fclip [fsub f1 p; p]) = [x; y] /\ complementary x y /\
    (in_unit p -> val y = val p) /\ (finite p -> val y = clip01 (val p)).
Proof.
  intros A N.
  assert (C : complementary (fclip (fsub f1 p)) (fclip p) /\ (finite p -> val (fclip p) = clip01 (val p))).
  { destruct f0_ok as (F0 & V0). destruct f1_ok as (F1 & V1).
    destruct (is_finite p) eqn:F.
    - fold (finite p) in F. split; [|intros _; apply fclip_ok, F].
      assert (Z01 : forall a b, in_unit a -> in_unit b -> val a + val b = 1 -> complementary a b).
      { intros a b Ua Ub E. split; [exact Ua|]. split; [exact Ub|].
        destruct (fadd_ok a b (proj1 Ua) (proj1 Ub)) as (_ & ->); [apply big4; rewrite E, Rabs_R1; lra|]. rewrite E. apply nearest_1. }
      destruct (Rle_dec 1 (val p)) as [L|L].
      { destruct (sub_above p F L) as (U1 & W1). destruct (clip_above p F L) as (U2 & W2). apply Z01; [assumption..|lra]. }
      destruct (Rle_dec (val p) 0) as [L'|L'].
      { destruct (sub_below p F L') as (U1 & W1). destruct (clip_below p F L') as (U2 & W2). apply Z01; [assumption..|lra]. }
      assert (U : in_unit p) by (split; [exact F|lra]).
      destruct (fsub_ok f1 p F1 F) as (G & W); [apply big4; rewrite V1, Rabs_pos_eq; lra|]. rewrite V1 in W.
      assert (U' : in_unit (fsub f1 p)).
      { split; [exact G|]. rewrite W. split; [apply nearest_ge_format; [apply format_0|lra]|apply nearest_le_format; [apply format_1|lra]]. }
      rewrite !fclip_unit by assumption. split; [exact U'|]. split; [exact U|].
      destruct (fadd_ok _ _ G F) as (_ & ->); [destruct U' as (_ & U'); apply big4; rewrite Rabs_pos_eq; lra|].
      rewrite W. rewrite <- (nearest_id (val p) (format_val p)) at 2. rewrite Rplus_comm. apply complement. lra.
    - split; [|intros H; unfold finite in H; congruence].
      destruct p as [s|s| |s m e B]; cbn in F, N; try discriminate. destruct s.
      + rewrite sub_neg_inf, finf_pos, finf_neg. split; [apply f1_unit|]. split; [apply f0_unit|].
        destruct (fadd_ok f1 f0 F1 F0) as (_ & ->); [apply big4; rewrite V0, V1, Rplus_0_r, Rabs_R1; lra|].
        rewrite V0, V1, Rplus_0_r. apply nearest_1.
      + rewrite sub_pos_inf, finf_pos, finf_neg. split; [apply f0_unit|]. split; [apply f1_unit|].
        destruct (fadd_ok f0 f1 F0 F1) as (_ & ->); [apply big4; rewrite V0, V1, Rplus_0_l, Rabs_R1; lra|].
        rewrite V0, V1, Rplus_0_l. apply nearest_1. }
  destruct C as (C & V). cbn [map]. destruct (normalise_one np_sum _ _ A C) as (x & y & E & G & _ & Y).
  exists x, y. split; [exact E|]. split; [exact G|]. split.
  - intros U. rewrite Y, fclip_unit by exact U. reflexivity.
  - intros F. rewrite Y. apply V, F.
Qed.

Lemma f_001_ok : finite f_001 /\ 1/2000 < val f_001.
Proof.
  destruct f1_ok as (F1 & V1). destruct (of_Z_ok 1000) as (F & V); [lia|].
  destruct (fdiv_ok f1 (of_Z 1000) F1) as (G & W); [rewrite V; lra|apply big4; rewrite V, V1, Rabs_pos_eq; lra|].
  split; [exact G|]. unfold f_001. rewrite W, V, V1.
  apply Rlt_le_trans with (bpow radix2 (-10)); [cbn; lra|]. apply nearest_ge_format; [apply format_bpow; lia|cbn; lra].
Qed.

Lemma nan_sub_l x y : is_nan x = true -> is_nan (fsub x y) = true.
Proof. destruct x; cbn; try discriminate. reflexivity. Qed.
Lemma nan_sub_r x y : is_nan y = true -> is_nan (fsub x y) = true.
Proof. destruct y; cbn; try discriminate. destruct x; reflexivity. Qed.
Lemma nan_lt x y : is_nan y = true -> flt x y = false.
Proof. destruct y; cbn; try discriminate. intros _. destruct x; reflexivity. Qed.

(** The correction, when it applies, does not overflow. *)
Lemma corrected_not_nan fpr tpr b : in_unit fpr -> in_unit tpr -> in_unit b -> flt f_001 (fabs (fsub tpr fpr)) = true ->
  finite (fdiv (fsub b fpr) (fsub tpr fpr)) /\
  val (fdiv (fsub b fpr) (fsub tpr fpr)) = nearest (nearest (val b - val fpr) / nearest (val tpr - val fpr)).
Proof.
  intros (Fa & Ba) (Ft & Bt) (Fb & Bb) T.
  assert (R4 : forall u v, 0 <= u <= 1 -> 0 <= v <= 1 -> Rabs (u - v) <= 1) by (intros u v ? ?; apply Rabs_le; lra).
  destruct (fsub_ok tpr fpr Ft Fa) as (D1 & D2); [apply big4; apply Rle_trans with 1; [apply R4; lra|lra]|].
  destruct (fsub_ok b fpr Fb Fa) as (N1 & N2); [apply big4; apply Rle_trans with 1; [apply R4; lra|lra]|].
  destruct f_001_ok as (G & H). destruct (fabs_ok _ D1) as (A1 & A2). apply flt_ok in T; [|assumption..]. rewrite A2 in T.
  assert (NZ : val (fsub tpr fpr) <> 0) by (intros E; rewrite E, Rabs_R0 in T; lra).
  destruct (fdiv_ok (fsub b fpr) (fsub tpr fpr) N1 NZ) as (Q1 & Q2).
  - apply big. unfold Rdiv. rewrite Rabs_mult, Rabs_inv. apply Rle_trans with (1 * 2000).
    + apply Rmult_le_compat; [apply Rabs_pos| | |].
      * left. apply Rinv_0_lt_compat. apply Rabs_pos_lt, NZ.
      * rewrite N2. apply abs_round_le_generic; [typeclasses eauto..|apply format_1|apply R4; lra].
      * replace 2000 with (/ (1/2000)) by field. apply Rinv_le_contravar; lra.
    + rewrite Rmult_1_l. apply IZR_le. lia.
  - split; [exact Q1|]. rewrite Q2, D2, N2. reflexivity.
Qed.

(** ** The binary correction *)

Definition rate_or_nan (x : float) : Prop := in_unit x \/ is_nan x = true.

Lemma adjust_complementary np_sum fpr tpr a b : adds_in_some_order np_sum -> rate_or_nan fpr -> rate_or_nan tpr ->
  complementary a b ->
  exists x y, binary_float_adjust np_sum fpr tpr [a; b] = [x; y] /\ complementary x y.
Proof.
  intros A R1 R2 C. unfold binary_float_adjust. destruct (flt f_001 (fabs (fsub tpr fpr))) eqn:T.
  - assert (N : forall z, is_nan (fsub tpr fpr) = true -> z = true -> False).
    { intros z Hn _. rewrite nan_lt in T; [discriminate T|]. unfold fabs. rewrite is_nan_Babs. exact Hn. }
    destruct R1 as [U1|N1]; [|exfalso; apply (N true); [apply nan_sub_r, N1|reflexivity]].
    destruct R2 as [U2|N2]; [|exfalso; apply (N true); [apply nan_sub_l, N2|reflexivity]].
    destruct (corrected_not_nan fpr tpr b U1 U2 (proj1 (proj2 C)) T) as (F & _).
    cbn [nth]. destruct (adjust_complement np_sum _ A (finite_not_nan _ F)) as (x & y & E & G & _).
    exists x, y. split; [exact E|exact G].
  - destruct C as (U1 & U2 & S). cbn [map]. rewrite !fclip_unit by assumption.
    destruct (normalise_one np_sum a b A (conj U1 (conj U2 S))) as (x & y & E & G & _). exists x, y. split; assumption.
Qed.

(** What the correction computes when it applies: the textbook formula with each of its four operations rounded. *)
Lemma adjust_value np_sum fpr tpr a b : adds_in_some_order np_sum -> in_unit fpr -> in_unit tpr -> in_unit b ->
  flt f_001 (fabs (fsub tpr fpr)) = true ->
  exists x y, binary_float_adjust np_sum fpr tpr [a; b] = [x; y] /\ complementary x y /\
    val y = clip01 (nearest (nearest (val b - val fpr) / nearest (val tpr - val fpr))).
Proof.
  intros A U1 U2 Ub T. unfold binary_float_adjust. rewrite T. cbn [nth].
  destruct (corrected_not_nan fpr tpr b U1 U2 Ub T) as (F & V).
  destruct (adjust_complement np_sum _ A (finite_not_nan _ F)) as (x & y & E & G & _ & Y).
  exists x, y. split; [exact E|]. split; [exact G|]. rewrite (Y F), V. reflexivity.
Qed.

(** Two numbers in [0, 1] that need not be complementary. *)
Lemma normalise_unit np_sum a b : adds_in_some_order np_sum -> in_unit a -> in_unit b ->
  exists x y, normalise_float np_sum [a; b] = [x; y] /\ in_unit x /\ in_unit y /\
    (0 < val a + val b -> Rabs (val x + val y - 1) <= bpow radix2 (-51)).
Proof.
  intros A U V. destruct (sum_two np_sum a b A U V) as (F & W). destruct f0_ok as (F0 & V0). unfold normalise_float.
  pose proof (proj2 U) as Ba. pose proof (proj2 V) as Bb.
  assert (GA : val a <= val (np_sum [a; b])).
  { rewrite W. apply nearest_ge_format; [apply format_val|lra]. }
  assert (GB : val b <= val (np_sum [a; b])).
  { rewrite W. apply nearest_ge_format; [apply format_val|lra]. }
  destruct (flt f0 (np_sum [a; b])) eqn:T.
  - apply flt_ok in T; [|assumption..]. rewrite V0 in T. cbn [map].
    destruct (fdiv_unit a _ (proj1 U) F) as (U' & EA); [lra..|]. destruct (fdiv_unit b _ (proj1 V) F) as (V' & EB); [lra..|].
    do 2 eexists. split; [reflexivity|]. split; [exact U'|]. split; [exact V'|]. intros P.
    set (s := val (np_sum [a; b])) in *.
    destruct (FLT_plus_error_N_round_ex radix2 (-1074) 53 (fun z => negb (Z.even z)) (val a) (val b) (format_val a) (format_val b)) as (e & He & Ee).
    change (round radix2 (FLT_exp (-1074) 53) ZnearestE (val a + val b)) with (nearest (val a + val b)) in Ee. rewrite <- W in Ee.
    assert (Ue : Rabs e <= bpow radix2 (-53)).
    { apply Rle_trans with (1 := He). unfold u_ro. change (- (53) + 1)%Z with (-52)%Z.
      change (bpow radix2 (-53)) with (bpow radix2 (-1 + -52)). rewrite bpow_plus. cbn. lra. }
    assert (Q : val a / s + val b / s = 1 + e). { fold s in Ee. rewrite <- Rdiv_plus_distr, Ee. field. lra. }
    assert (Ra : 0 <= val a / s <= 1).
    { split; [apply Rdiv_le_0_compat; lra|]. apply Rmult_le_reg_r with (1 := T). unfold Rdiv. rewrite Rmult_assoc, Rinv_l by lra. lra. }
    assert (Rb : 0 <= val b / s <= 1).
    { split; [apply Rdiv_le_0_compat; lra|]. apply Rmult_le_reg_r with (1 := T). unfold Rdiv. rewrite Rmult_assoc, Rinv_l by lra. lra. }
    assert (Da : Rabs (nearest (val a / s) - val a / s) <= bpow radix2 (-54)) by (apply nearest_error_unit; rewrite Rabs_pos_eq; lra).
    assert (Db : Rabs (nearest (val b / s) - val b / s) <= bpow radix2 (-54)) by (apply nearest_error_unit; rewrite Rabs_pos_eq; lra).
    rewrite EA, EB. apply Rabs_le_inv in Da, Db, Ue.
    assert (B1 : bpow radix2 (-51) = 8 * bpow radix2 (-54)). { change (-51)%Z with (3 + -54)%Z. rewrite bpow_plus. reflexivity. }
    assert (B2 : bpow radix2 (-53) = 2 * bpow radix2 (-54)). { change (-53)%Z with (1 + -54)%Z. rewrite bpow_plus. reflexivity. }
    pose proof (bpow_gt_0 radix2 (-54)). apply Rabs_le. lra.
  - apply flt_false in T; [|assumption..]. rewrite V0 in T. exists a, b. split; [reflexivity|]. split; [exact U|]. split; [exact V|]. lra.
Qed.

Lemma adjust_unit np_sum fpr tpr a b : adds_in_some_order np_sum -> rate_or_nan fpr -> rate_or_nan tpr -> in_unit a -> in_unit b ->
  exists x y, binary_float_adjust np_sum fpr tpr [a; b] = [x; y] /\ in_unit x /\ in_unit y /\
    (0 < val a + val b -> Rabs (val x + val y - 1) <= bpow radix2 (-51)).
Proof.
  intros A R1 R2 Ua Ub. unfold binary_float_adjust. destruct (flt f_001 (fabs (fsub tpr fpr))) eqn:T.
  - assert (N : forall z, is_nan (fsub tpr fpr) = true -> z = true -> False).
    { intros z Hn _. rewrite nan_lt in T; [discriminate T|]. unfold fabs. rewrite is_nan_Babs. exact Hn. }
    destruct R1 as [U1|N1]; [|exfalso; apply (N true); [apply nan_sub_r, N1|reflexivity]].
    destruct R2 as [U2|N2]; [|exfalso; apply (N true); [apply nan_sub_l, N2|reflexivity]].
    destruct (corrected_not_nan fpr tpr b U1 U2 Ub T) as (F & _).
    cbn [nth]. destruct (adjust_complement np_sum _ A (finite_not_nan _ F)) as (x & y & E & (G1 & G2 & G3) & _).
    exists x, y. split; [exact E|]. split; [exact G1|]. split; [exact G2|]. intros _.
    destruct (fadd_ok x y (proj1 G1) (proj1 G2)) as (_ & W).
    { destruct G1 as (_ & G1), G2 as (_ & G2). apply big4. rewrite Rabs_pos_eq; lra. }
    rewrite G3 in W.
    destruct (FLT_plus_error_N_round_ex radix2 (-1074) 53 (fun z => negb (Z.even z)) (val x) (val y) (format_val x) (format_val y)) as (e & He & Ee).
    change (round radix2 (FLT_exp (-1074) 53) ZnearestE (val x + val y)) with (nearest (val x + val y)) in Ee. rewrite <- W in Ee.
    rewrite Ee. replace (1 * (1 + e) - 1) with e by ring. apply Rle_trans with (1 := He). unfold u_ro.
    change (- (53) + 1)%Z with (-52)%Z. change (bpow radix2 (-51)) with (bpow radix2 (1 + -52)). rewrite bpow_plus.
    pose proof (bpow_gt_0 radix2 (-52)). cbn [bpow radix2]. cbn. lra.
  - cbn [map]. rewrite !fclip_unit by assumption. apply normalise_unit; assumption.
Qed.
