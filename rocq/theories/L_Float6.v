(** * Proofs about double precision: Frank and Hall's combination. *)

From Coq Require Import Reals ZArith List Bool Lia Lra Permutation.
From Flocq Require Import Core BinarySingleNaN.
From Verif Require Import Num L_Num Spec M_Baselines M_Ordinal M_Float Spec_Float L_Float L_Float2 L_Float3 L_Float4 M_Float2 L_Float5.
Import ListNotations.
Open Scope R_scope.

(** ** Up to eight classes *)

Lemma fincrements_front np_sum l : forall f, exists g, fincrements np_sum f l = f ++ g /\ length g = length l.
Proof.
  induction l as [|p t IH]; intros f; cbn [fincrements].
  - exists []. rewrite app_nil_r. split; reflexivity.
  - destruct (IH (f ++ [fclip (fsub p (np_sum f))])) as (g & E & L).
    exists (fclip (fsub p (np_sum f)) :: g). rewrite E, <- app_assoc. split; [reflexivity|cbn; lia].
Qed.

Lemma left_to_right_snoc l x : left_to_right (l ++ [x]) = fadd (left_to_right l) x.
Proof. unfold left_to_right. rewrite fold_left_app. reflexivity. Qed.

Lemma sub_unit p s : in_unit p -> in_unit s -> finite (fsub p s) /\ val (fsub p s) = nearest (val p - val s).
Proof. intros (Fp & Bp) (Fs & Bs). apply fsub_ok; [exact Fp|exact Fs|]. apply big4. apply Rabs_le. lra. Qed.

(** One step keeps the machine sum in [0, 1]. *)
Lemma step_unit p s : in_unit p -> in_unit s -> in_unit (fadd s (fclip (fsub p s))).
Proof.
  intros Up Us. destruct (sub_unit p s Up Us) as (F & V). pose proof Up as (Fp & Bp). pose proof Us as (Fs & Bs).
  destruct (fclip_ok _ F) as (G & W). rewrite V in W. pose proof (clip01_range (nearest (val p - val s))) as C.
  destruct (fadd_ok s (fclip (fsub p s)) Fs G) as (H & X); [apply big4; rewrite W; apply Rabs_le; lra|].
  split; [exact H|]. rewrite X, W. split.
  - apply nearest_ge_format; [apply format_0|lra].
  - assert (C' : clip01 (nearest (val p - val s)) <= nearest (1 - val s)).
    { destruct (Rle_dec (nearest (val p - val s)) 0) as [L|L].
      - rewrite clip01_low by exact L. apply nearest_ge_format; [apply format_0|lra].
      - assert (nearest (val p - val s) <= nearest (1 - val s)) by (apply nearest_le; lra).
        assert (nearest (val p - val s) <= 1) by (apply nearest_le_format; [apply format_1|lra]).
        rewrite clip01_id by lra. assumption. }
    apply Rle_trans with (nearest (val s + nearest (1 - val s))); [apply nearest_le; lra|].
    pose proof (complement (val s) Bs) as K. rewrite (nearest_id (val s) (format_val s)) in K. lra.
Qed.

Lemma fincrements_few np_sum l : adds_few_in_order np_sum -> Forall in_unit l ->
  forall f, (length f + length l < 8)%nat -> Forall in_unit f -> in_unit (left_to_right f) ->
  Forall in_unit (fincrements np_sum f l) /\ in_unit (left_to_right (fincrements np_sum f l)).
Proof.
  intros A. induction 1 as [|p t Up Ut IH]; intros f L F S; [split; assumption|].
  cbn [fincrements]. cbn [length] in L. rewrite (A f) by lia. apply IH.
  - rewrite app_length. cbn. lia.
  - apply Forall_app. split; [exact F|]. apply Forall_cons; [|constructor]. apply fclip_in_unit, sub_unit; assumption.
  - rewrite left_to_right_snoc. apply step_unit; assumption.
Qed.

Lemma add_zero x : in_unit x -> in_unit (fadd f0 x) /\ val (fadd f0 x) = val x.
Proof.
  intros (F & B). destruct f0_ok as (F0 & V0). destruct (fadd_ok f0 x F0 F) as (G & W); [apply big4; rewrite V0; apply Rabs_le; lra|].
  rewrite V0, Rplus_0_l, (nearest_id _ (format_val x)) in W. split; [split; [exact G|rewrite W; exact B]|exact W].
Qed.

Lemma from_left_few np_sum left : adds_few_in_order np_sum -> left <> [] -> (length left < 8)%nat -> Forall in_unit left ->
  exists p, from_left_groups_float np_sum left = Val p /\ length p = S (length left) /\ Forall in_unit p /\ val (left_to_right p) = 1.
Proof.
  intros A Ne L U. destruct U as [|x t Ux Ut]; [congruence|]. cbn [length] in L.
  unfold from_left_groups_float. set (front := fincrements np_sum [x] t).
  assert (S0 : in_unit (left_to_right [x])) by (apply add_zero, Ux).
  destruct (fincrements_few np_sum t A Ut [x]) as (P & Q); [cbn; lia|apply Forall_cons; [exact Ux|constructor]|exact S0|].
  fold front in P, Q. assert (LF : length front = S (length t)).
  { unfold front. destruct (fincrements_front np_sum t [x]) as (g & -> & E). cbn. lia. }
  rewrite (A front) by lia. exists (front ++ [fsub f1 (left_to_right front)]).
  destruct (sub_unit f1 _ f1_unit Q) as (F & V). destruct f1_ok as (F1 & V1). rewrite V1 in V. pose proof Q as (Fq & Bq).
  assert (Ul : in_unit (fsub f1 (left_to_right front))).
  { split; [exact F|]. rewrite V. split; [apply nearest_ge_format; [apply format_0|lra]|apply nearest_le_format; [apply format_1|lra]]. }
  split; [reflexivity|]. split; [rewrite app_length; cbn; lia|]. split.
  - apply Forall_app. split; [exact P|]. apply Forall_cons; [exact Ul|constructor].
  - rewrite left_to_right_snoc. pose proof Ul as (Fl & Bl).
    destruct (fadd_ok _ _ Fq Fl) as (_ & W); [apply big4, Rabs_le; lra|]. rewrite W, V.
    pose proof (complement (val (left_to_right front)) Bq) as K. rewrite (nearest_id _ (format_val (left_to_right front))) in K. exact K.
Qed.

Lemma FHQ_few np_sum left : adds_few_in_order np_sum -> left <> [] -> (length left < 8)%nat -> Forall in_unit left ->
  exists p, FHQ_float np_sum left = Val p /\ length p = S (length left) /\ Forall in_unit p /\ val (left_to_right p) = 1.
Proof.
  intros A Ne L U. unfold FHQ_float. rewrite <- (fcorrect_length left) in L |- *. apply from_left_few; [exact A| |exact L|apply fcorrect_ok, U].
  intros E. apply (f_equal (@length _)) in E. rewrite fcorrect_length in E. destruct left; [congruence|discriminate].
Qed.

(** ** Any number of classes, any order of summation: how far from the exact answer *)

Lemma sub_error x y : exists d, Rabs d <= ulp1 /\ nearest (val x - val y) = (val x - val y) * (1 + d).
Proof.
  destruct (add_error x (Bopp y)) as (d & A & B). unfold val in B. rewrite B2R_Bopp in B. exists d. split; [exact A|exact B].
Qed.

Lemma clip01_lip a b : Rabs (clip01 a - clip01 b) <= Rabs (a - b).
Proof. unfold clip01, Rmin, Rmax, Rabs. repeat destruct (Rle_dec _ _); repeat destruct (Rcase_abs _); lra. Qed.

Lemma cum_lip p s t : Rabs ((s + clip01 (p - s)) - (t + clip01 (p - t))) <= Rabs (s - t).
Proof. unfold clip01, Rmin, Rmax, Rabs. repeat destruct (Rle_dec _ _); repeat destruct (Rcase_abs _); lra. Qed.

Lemma ulp1_pos : 0 < ulp1. Proof. apply bpow_gt_0. Qed.

Lemma within_le d e l m : d <= e -> within d l m -> within e l m.
Proof. intros D. induction 1; constructor; [lra|assumption]. Qed.

Section Accuracy.
Variable np_sum : list float -> float.
Hypothesis sums : adds_in_some_order np_sum.
Variable k : nat.
Hypothesis K : (Z.of_nat k <= 2 ^ 20)%Z.

Lemma k_small : INR k <= IZR (2 ^ 20).
Proof using K. rewrite INR_IZR_INZ. apply IZR_le, K. Qed.

Lemma k_ulp : 8 * INR k * INR k * ulp1 <= 1.
Proof using K.
  pose proof k_small as H. pose proof (pos_INR k).
  assert (INR k * INR k <= IZR (2 ^ 40)) by (change (2 ^ 40)%Z with (2 ^ 20 * 2 ^ 20)%Z; rewrite mult_IZR; apply Rmult_le_compat; assumption).
  assert (E : ulp1 = / IZR (2 ^ 53)) by reflexivity. rewrite E.
  apply Rmult_le_reg_r with (IZR (2 ^ 53)); [apply IZR_lt; reflexivity|]. rewrite Rmult_assoc, Rinv_l by (apply Rgt_not_eq, IZR_lt; reflexivity).
  assert (8 * IZR (2 ^ 40) <= IZR (2 ^ 53)) by (rewrite <- mult_IZR; apply IZR_le; lia). lra.
Qed.

Lemma sum_close f : Forall in_unit f -> (length f <= k)%nat -> exact_sum f <= 2 ->
  finite (np_sum f) /\ 0 <= val (np_sum f) <= 3 /\ Rabs (val (np_sum f) - exact_sum f) <= 4 * INR k * ulp1.
Proof using sums K.
  intros U L S. assert (N : small (length f)) by (unfold small; lia). pose proof ulp1_pos as u0. pose proof k_small as H. pose proof k_ulp as H8.
  destruct (summed_range _ _ (sums f) U N) as (F & B). pose proof (summed_error _ _ (sums f) U N) as D.
  assert (S0 : 0 <= exact_sum f) by (apply (bounded_sum 0), Forall_unit_bounded, U).
  assert (Lr : INR (length f) <= INR k) by (apply le_INR, L). pose proof (pos_INR (length f)).
  assert (k1 : INR k * ulp1 <= 1/8).
  { apply Rle_trans with (IZR (2 ^ 20) * ulp1); [apply Rmult_le_compat_r; lra|]. change (IZR (2 ^ 20)) with (bpow radix2 20).
    unfold ulp1. rewrite <- bpow_plus. apply Rle_trans with (bpow radix2 (-3)); [apply bpow_le; lia|]. cbn. lra. }
  assert (l1 : INR (length f) * ulp1 <= INR k * ulp1) by (apply Rmult_le_compat_r; lra).
  pose proof (pow_near (length f) ltac:(lra)) as P. pose proof (pow_mono (length f)).
  assert (Q : ((1 + ulp1) ^ length f - 1) * exact_sum f <= 2 * (INR k * ulp1) * 2).
  { apply Rmult_le_compat; lra. }
  apply Rabs_le_inv in D. split; [exact F|]. split; [|apply Rabs_le]; lra.
Qed.

Lemma step_close f p : Forall in_unit f -> (0 < length f <= k)%nat -> exact_sum f <= 2 -> in_unit p ->
  in_unit (fclip (fsub p (np_sum f))) /\ Rabs (val (fclip (fsub p (np_sum f))) - clip01 (val p - exact_sum f)) <= 7 * INR k * ulp1 /\
  Rabs (val (fsub p (np_sum f)) - (val p - exact_sum f)) <= 7 * INR k * ulp1 /\ finite (fsub p (np_sum f)).
Proof using sums K.
  intros U L S (Fp & Bp). destruct (sum_close f U ltac:(lia) S) as (F & B & D).
  destruct (fsub_ok p (np_sum f) Fp F) as (G & V); [apply big4, Rabs_le; lra|].
  destruct (sub_error p (np_sum f)) as (d & Hd & Ed). rewrite Ed in V.
  assert (E : Rabs (val (fsub p (np_sum f)) - (val p - exact_sum f)) <= 7 * INR k * ulp1).
  { rewrite V. replace ((val p - val (np_sum f)) * (1 + d) - (val p - exact_sum f))
      with ((val p - val (np_sum f)) * d + (exact_sum f - val (np_sum f))) by ring.
    apply Rle_trans with (1 := Rabs_triang _ _). rewrite Rabs_mult.
    assert (X : Rabs (val p - val (np_sum f)) <= 3) by (apply Rabs_le; lra).
    assert (Y : Rabs (val p - val (np_sum f)) * Rabs d <= 3 * ulp1) by (apply Rmult_le_compat; try apply Rabs_pos; assumption).
    rewrite Rabs_minus_sym in D. assert (1 <= INR k) by (change 1 with (INR 1); apply le_INR; lia). pose proof ulp1_pos.
    assert (3 * ulp1 <= 3 * INR k * ulp1) by (apply Rmult_le_compat_r; lra). lra. }
  destruct (fclip_ok _ G) as (G' & V'). split; [apply fclip_in_unit, G|]. split; [|split; [exact E|exact G]].
  rewrite V'. apply Rle_trans with (1 := clip01_lip _ _), E.
Qed.

Lemma increments_unit_sum l : forall s, 0 <= s <= 1 -> Forall (fun x => 0 <= x <= 1) l -> 0 <= s + rsum (increments s l) <= 1.
Proof using.
  clear. induction l as [|p t IH]; intros s B U; cbn [increments rsum]; [lra|]. inversion U as [|? ? Bp Ut]; subst.
  cbv zeta. cbn [rsum]. specialize (IH (s + clip01 (p - s))).
  assert (0 <= s + clip01 (p - s) <= 1). { unfold clip01, Rmin, Rmax. repeat destruct (Rle_dec _ _); lra. }
  specialize (IH H Ut). lra.
Qed.

(** [n] counts the steps made so far. *)
Lemma fincrements_close l : forall n f s, Forall in_unit f -> Forall in_unit l -> (0 < length f)%nat -> (length f + length l <= k)%nat ->
  (n <= length f)%nat -> 0 <= s <= 1 -> Rabs (exact_sum f - s) <= 7 * INR k * INR n * ulp1 ->
  exists g, fincrements np_sum f l = f ++ g /\ Forall in_unit g /\
    within (8 * INR k * INR k * ulp1) g (increments s (map val l)) /\
    Rabs (exact_sum (f ++ g) - (s + rsum (increments s (map val l)))) <= 7 * INR k * INR (n + length l) * ulp1.
Proof using sums K.
  induction l as [|p t IH]; intros n f s U Ul L0 L N B D.
  - exists []. cbn [fincrements map increments rsum length]. rewrite app_nil_r, Nat.add_0_r, Rplus_0_r.
    split; [reflexivity|]. split; [constructor|]. split; [constructor|exact D].
  - inversion Ul as [|? ? Up Ut]; subst. cbn [length] in L.
    assert (u0 := ulp1_pos). assert (k8 := k_ulp). assert (Nk : INR n + 1 <= INR k) by (rewrite <- S_INR; apply le_INR; lia). pose proof (pos_INR n) as N0.
    set (u := ulp1) in *. set (kr := INR k) in *.
    assert (c1 : kr * INR n * u + kr * u <= kr * kr * u).
    { replace (kr * INR n * u + kr * u) with (kr * u * (INR n + 1)) by ring. replace (kr * kr * u) with (kr * u * kr) by ring.
      apply Rmult_le_compat_l; [|exact Nk]. apply Rmult_le_pos; [unfold kr; apply pos_INR|lra]. }
    assert (c0 : 0 <= kr * u) by (apply Rmult_le_pos; [unfold kr; apply pos_INR|lra]).
    assert (c2 : 0 <= kr * INR n * u) by (apply Rmult_le_pos; [apply Rmult_le_pos; [unfold kr; apply pos_INR|exact N0]|lra]).
    assert (S2 : exact_sum f <= 2) by (apply Rabs_le_inv in D; lra).
    destruct (step_close f p U ltac:(lia) S2 Up) as (Ud & E & _). fold u kr in E. set (d := fclip (fsub p (np_sum f))) in *.
    pose proof Up as (Fp & Bp).
    assert (S' : 0 <= s + clip01 (val p - s) <= 1). { unfold clip01, Rmin, Rmax. repeat destruct (Rle_dec _ _); lra. }
    assert (D' : Rabs (exact_sum (f ++ [d]) - (s + clip01 (val p - s))) <= 7 * kr * INR (S n) * u).
    { rewrite exact_sum_app. unfold exact_sum at 2. cbn [map fold_right]. rewrite Rplus_0_r.
      replace (exact_sum f + val d - (s + clip01 (val p - s)))
        with ((val d - clip01 (val p - exact_sum f)) + ((exact_sum f + clip01 (val p - exact_sum f)) - (s + clip01 (val p - s)))) by ring.
      apply Rle_trans with (1 := Rabs_triang _ _). pose proof (cum_lip (val p) (exact_sum f) s) as C. rewrite S_INR. lra. }
    destruct (IH (S n) (f ++ [d]) (s + clip01 (val p - s))) as (g & E1 & E2 & E3 & E4).
    + apply Forall_app. split; [exact U|apply Forall_cons; [exact Ud|constructor]].
    + exact Ut.
    + rewrite app_length. cbn. lia.
    + rewrite app_length. cbn. lia.
    + rewrite app_length. cbn. lia.
    + exact S'.
    + exact D'.
    + exists (d :: g). cbn [fincrements]. fold d. rewrite E1, <- app_assoc. split; [reflexivity|]. split; [apply Forall_cons; assumption|].
      cbn [map increments]. cbv zeta. split.
      * constructor; [|exact E3].
        replace (val d - clip01 (val p - s)) with ((val d - clip01 (val p - exact_sum f)) + (clip01 (val p - exact_sum f) - clip01 (val p - s))) by ring.
        apply Rle_trans with (1 := Rabs_triang _ _). pose proof (clip01_lip (val p - exact_sum f) (val p - s)) as C.
        replace (val p - exact_sum f - (val p - s)) with (s - exact_sum f) in C by ring. rewrite (Rabs_minus_sym s (exact_sum f)) in C. lra.
      * rewrite <- app_assoc in E4. cbn [app] in E4. cbn [rsum length]. replace (n + S (length t))%nat with (S n + length t)%nat by lia.
        rewrite <- Rplus_assoc. exact E4.
Qed.

Lemma from_left_close left : left <> [] -> (length left < k)%nat -> Forall in_unit left ->
  exists p q, from_left_groups_float np_sum left = Val p /\ from_left_groups (map val left) = Val q /\
    within (INR k * INR k * bpow radix2 (-50)) p q.
Proof using sums K.
  intros Ne L U. destruct U as [|x t Ux Ut]; [congruence|]. cbn [length] in L. pose proof Ux as (Fx & Bx).
  assert (u0 := ulp1_pos). assert (k8 := k_ulp).
  destruct (fincrements_close t 0 [x] (val x)) as (g & E1 & E2 & E3 & E4); cbn [length]; try lia; try assumption.
  - apply Forall_cons; [exact Ux|constructor].
  - unfold exact_sum. cbn. replace (val x + 0 - val x) with 0 by ring. rewrite Rabs_R0. rewrite Rmult_0_r. lra.
  - unfold from_left_groups_float, from_left_groups. cbn [map]. rewrite E1. cbv zeta.
    set (front := [x] ++ g) in *.
    assert (B50 : bpow radix2 (-50) = 8 * ulp1) by (unfold ulp1; change (-50)%Z with (3 + -53)%Z; rewrite bpow_plus; reflexivity).
    assert (Uf : Forall in_unit front) by (apply Forall_cons; assumption).
    assert (Lf : length front = S (length t)).
    { unfold front. rewrite app_length. cbn. pose proof (within_length _ _ _ E3) as W. rewrite W.
      assert (IL : forall l s, length (increments s l) = length l) by (clear; induction l; intros; cbn; [reflexivity|f_equal; apply IHl]).
      rewrite IL, map_length. reflexivity. }
    assert (Lt : INR (length t) + 2 <= INR k) by (replace (INR (length t) + 2) with (INR (S (S (length t)))) by (rewrite !S_INR; ring); apply le_INR; lia).
    cbn [Nat.add] in E4. pose proof (pos_INR (length t)) as t0.
    set (u := ulp1) in *. set (kr := INR k) in *.
    assert (k0 : 0 <= kr * u) by (apply Rmult_le_pos; [unfold kr; apply pos_INR|lra]).
    assert (c1 : kr * INR (length t) * u + 2 * (kr * u) <= kr * kr * u).
    { replace (kr * INR (length t) * u + 2 * (kr * u)) with (kr * u * (INR (length t) + 2)) by ring. replace (kr * kr * u) with (kr * u * kr) by ring.
      apply Rmult_le_compat_l; [exact k0|exact Lt]. }
    assert (c2 : 0 <= kr * INR (length t) * u) by (apply Rmult_le_pos; [apply Rmult_le_pos; [unfold kr; apply pos_INR|exact t0]|lra]).
    assert (BI : 0 <= val x + rsum (increments (val x) (map val t)) <= 1).
    { apply increments_unit_sum; [exact Bx|]. apply Forall_map. eapply Forall_impl; [|exact Ut]. intros a (_ & H). exact H. }
    assert (S2 : exact_sum front <= 2) by (apply Rabs_le_inv in E4; lra).
    destruct (step_close front f1 Uf ltac:(lia) S2 f1_unit) as (_ & _ & E & F). destruct f1_ok as (_ & V1). rewrite V1 in E. fold u kr in E.
    eexists. eexists. split; [reflexivity|]. split; [reflexivity|].
    rewrite B50. fold u kr. unfold front at 1. cbn [app]. constructor.
    + replace (val x - val x) with 0 by ring. rewrite Rabs_R0. apply Rmult_le_pos; [|lra]. apply Rmult_le_pos; unfold kr; apply pos_INR.
    + apply Forall2_app.
      * eapply within_le; [|exact E3]. lra.
      * constructor; [|constructor].
        change (rsum (val x :: increments (val x) (map val t))) with (val x + rsum (increments (val x) (map val t))).
        set (r := val x + rsum (increments (val x) (map val t))) in *. apply Rabs_le_inv in E4, E. apply Rabs_le. lra.
Qed.
End Accuracy.

(** ** The whole of it *)

Lemma increments_lip d l : 0 <= d -> forall m s t, Forall2 (fun a b => Rabs (a - b) <= d) l m -> Rabs (s - t) <= d ->
  0 <= s <= 1 -> 0 <= t <= 1 -> Forall (fun x => 0 <= x <= 1) l -> Forall (fun x => 0 <= x <= 1) m ->
  Forall2 (fun a b => Rabs (a - b) <= 2 * d) (increments s l) (increments t m) /\
  Rabs ((s + rsum (increments s l)) - (t + rsum (increments t m))) <= d.
Proof.
  intros D. induction l as [|a l IH]; intros m s t H S Bs Bt Ul Um.
  - inversion H; subst. cbn. rewrite !Rplus_0_r. split; [constructor|exact S].
  - inversion H as [|? b ? m' Hab Hlm]; subst. cbn [increments]. cbv zeta. cbn [rsum].
    inversion Ul as [|? ? Ba Ul']; subst. inversion Um as [|? ? Bb Um']; subst.
    assert (C : Rabs (s + clip01 (a - s) - (t + clip01 (b - t))) <= d).
    { revert Hab S. unfold clip01, Rmin, Rmax, Rabs. repeat destruct (Rle_dec _ _); repeat destruct (Rcase_abs _); lra. }
    assert (R1 : forall p s, 0 <= p <= 1 -> 0 <= s <= 1 -> 0 <= s + clip01 (p - s) <= 1).
    { intros. unfold clip01, Rmin, Rmax. repeat destruct (Rle_dec _ _); lra. }
    destruct (IH m' (s + clip01 (a - s)) (t + clip01 (b - t)) Hlm C) as (P & Q); try assumption; [apply R1; assumption|apply R1; assumption|].
    split.
    + constructor; [|exact P]. apply Rle_trans with (1 := clip01_lip _ _). apply Rabs_le_inv in Hab, S. apply Rabs_le. lra.
    + rewrite <- !Rplus_assoc. exact Q.
Qed.

Lemma from_left_lip d l m : 0 <= d -> l <> [] -> Forall2 (fun a b => Rabs (a - b) <= d) l m ->
  Forall (fun x => 0 <= x <= 1) l -> Forall (fun x => 0 <= x <= 1) m ->
  exists p q, from_left_groups l = Val p /\ from_left_groups m = Val q /\ Forall2 (fun a b => Rabs (a - b) <= 2 * d) p q.
Proof.
  intros D Ne H Ul Um. destruct H as [|a b l m Hab Hlm]; [congruence|].
  inversion Ul; subst. inversion Um; subst. unfold from_left_groups. cbv zeta. eexists. eexists. split; [reflexivity|]. split; [reflexivity|].
  destruct (increments_lip d l D m a b Hlm Hab) as (P & Q); try assumption.
  cbn [app]. constructor; [lra|]. apply Forall2_app; [exact P|]. constructor; [|constructor].
  cbn [rsum]. apply Rabs_le_inv in Q. apply Rabs_le. lra.
Qed.

Lemma within_trans d e l m q : within d l m -> Forall2 (fun a b => Rabs (a - b) <= e) m q -> within (d + e) l q.
Proof.
  intros H. revert q. induction H as [|x r l m Hx H IH]; intros q E; inversion E; subst; [constructor|]. constructor; [|apply IH; assumption].
  match goal with H : Rabs (r - ?y) <= e |- Rabs (val x - ?y) <= _ => replace (val x - y) with ((val x - r) + (r - y)) by ring end.
  apply Rle_trans with (1 := Rabs_triang _ _). lra.
Qed.

Lemma within_Forall2 d l m : within d l m -> Forall2 (fun a b => Rabs (a - b) <= d) (map val l) m.
Proof. induction 1; constructor; assumption. Qed.

Lemma units_val l : Forall in_unit l -> Forall (fun x => 0 <= x <= 1) (map val l).
Proof. intros U. apply Forall_map. eapply Forall_impl; [|exact U]. intros a (_ & H). exact H. Qed.

Lemma raise_from_unit l : forall p, 0 <= p <= 1 -> Forall (fun x => 0 <= x <= 1) l -> Forall (fun x => 0 <= x <= 1) (raise_from p l).
Proof.
  induction l as [|x t IH]; intros p P U; [constructor|]. inversion U; subst. cbn. constructor; [destruct (Rlt_dec x p); assumption|].
  apply IH; [destruct (Rlt_dec x p); assumption|assumption].
Qed.

Lemma correct_unit l : Forall (fun x => 0 <= x <= 1) l -> Forall (fun x => 0 <= x <= 1) (correct_asc l).
Proof.
  intros U. unfold correct_asc. destruct (is_ascending l); [exact U|].
  assert (A : Forall (fun x => 0 <= x <= 1) (M_Ordinal.left_to_right l)).
  { destruct U; [constructor|]. cbn. constructor; [assumption|apply raise_from_unit; assumption]. }
  assert (B : Forall (fun x => 0 <= x <= 1) (right_to_left l)).
  { clear A. induction U as [|x t Ux Ut IH]; [constructor|]. cbn. destruct (right_to_left t) as [|y r]; [apply Forall_cons; [exact Ux|exact IH]|].
    inversion IH; subst. constructor; [destruct (Rlt_dec y x); assumption|exact IH]. }
  revert B. generalize (right_to_left l). induction A as [|a s Ha A IH]; intros b B; [destruct b; constructor|].
  destruct B; cbn; constructor; [lra|]. apply IH. assumption.
Qed.

Lemma FHQ_close np_sum left : adds_in_some_order np_sum -> left <> [] -> (Z.of_nat (length left) < 2 ^ 20)%Z -> Forall in_unit left ->
  exists p q, FHQ_float np_sum left = Val p /\ FHQ_combine (map val left) = Val q /\
    within (INR (S (length left)) * INR (S (length left)) * bpow radix2 (-50) + bpow radix2 (-51)) p q.
Proof.
  intros A Ne L U. destruct (fcorrect_ok left U) as (Uc & W).
  assert (Nc : fcorrect_asc left <> []).
  { intros E. apply (f_equal (@length _)) in E. rewrite fcorrect_length in E. destruct left; [congruence|discriminate]. }
  destruct (from_left_close np_sum A (S (length left)) ltac:(lia) (fcorrect_asc left) Nc ltac:(rewrite fcorrect_length; lia) Uc) as (p & q & E1 & E2 & E3).
  destruct (from_left_lip (bpow radix2 (-52)) (map val (fcorrect_asc left)) (correct_asc (map val left))) as (q1 & q2 & F1 & F2 & F3).
  - apply bpow_ge_0.
  - intros E. apply map_eq_nil in E. contradiction.
  - apply within_Forall2, W.
  - apply units_val, Uc.
  - apply correct_unit, units_val, U.
  - exists p, q2. split; [exact E1|]. split; [exact F2|].
    assert (q1 = q) by congruence. subst q1. eapply within_trans; [exact E3|].
    assert (B : bpow radix2 (-51) = 2 * bpow radix2 (-52)) by (change (-51)%Z with (1 + -52)%Z; rewrite bpow_plus; reflexivity).
    rewrite B. exact F3.
Qed.
