(** * Proofs about the ordinal classifiers in double precision: Frank and Hall. *)

From Coq Require Import Reals List ZArith Lia Lra Permutation Bool.
From Flocq Require Import Core BinarySingleNaN.
From Verif Require Import Num Spec L_Num M_Baselines L_Baselines L_Metrics M_Ordinal Spec_Ordinal L_Ordinal L_Ordinal2
  M_Float Spec_Float L_Float L_Float2 L_Float8 M_Float7 Spec_FloatOrd.
Import ListNotations.
Open Scope R_scope.

Local Notation pow2 := (bpow radix2).

Lemma pow54 : pow2 (-53) = 2 * pow2 (-54) /\ 0 < pow2 (-54) /\ pow2 (-52) = 4 * pow2 (-54).
Proof.
  split; [|split; [apply bpow_gt_0|]].
  - change (pow2 (-53)) with (pow2 (1 + -54)). rewrite bpow_plus. reflexivity.
  - change (pow2 (-52)) with (pow2 (2 + -54)). rewrite bpow_plus. reflexivity.
Qed.

(** ** One multiplication and one complement *)

Lemma mul_unit x v : in_unit x -> in_unit v ->
  in_unit (fmul x v) /\ val (fmul x v) = nearest (val x * val v) /\ Rabs (val (fmul x v) - val x * val v) <= pow2 (-54).
Proof.
  intros (Fx & Bx) (Fv & Bv). assert (B : 0 <= val x * val v <= 1) by nra.
  destruct (fmul_ok x v Fx Fv) as (F & V); [apply big4; rewrite Rabs_pos_eq; lra|].
  split; [|split; [exact V|]].
  - split; [exact F|]. rewrite V. split; [apply nearest_ge_format; [apply format_0|lra]|apply nearest_le_format; [apply format_1|lra]].
  - rewrite V. apply nearest_error_unit. rewrite Rabs_pos_eq; lra.
Qed.

Lemma unit_f1 : in_unit f1 /\ val f1 = 1.
Proof. assert (V : val f1 = 1) by (unfold val, f1; vm_compute; lra). split; [split; [reflexivity|lra]|exact V]. Qed.
Lemma unit_f0 : in_unit f0 /\ val f0 = 0.
Proof. assert (V : val f0 = 0) by reflexivity. split; [split; [reflexivity|lra]|exact V]. Qed.

Lemma one_minus_unit x : in_unit x ->
  in_unit (fsub f1 x) /\ val (fsub f1 x) = nearest (1 - val x) /\ Rabs (val (fsub f1 x) - (1 - val x)) <= pow2 (-54).
Proof.
  intros (Fx & Bx). destruct unit_f1 as ((F1 & _) & V1).
  destruct (fsub_ok f1 x F1 Fx) as (F & V); [rewrite V1; apply big4; rewrite Rabs_pos_eq; lra|]. rewrite V1 in V.
  split; [|split; [exact V|]].
  - split; [exact F|]. rewrite V. split; [apply nearest_ge_format; [apply format_0|lra]|apply nearest_le_format; [apply format_1|lra]].
  - rewrite V. apply nearest_error_unit. rewrite Rabs_pos_eq; lra.
Qed.

(** ** FrankAndHallClassifier *)

Lemma nth_unit l i : Forall in_unit l -> in_unit (nth i l f0).
Proof.
  intros U. destruct (Nat.lt_ge_cases i (length l)) as [H|H].
  - rewrite Forall_forall in U. apply U, nth_In, H.
  - rewrite nth_overflow by exact H. apply unit_f0.
Qed.

Lemma nth_vals l i : nth i (map val l) 0 = val (nth i l f0).
Proof. change 0 with (val f0) at 1. apply map_nth. Qed.

Lemma FH_row_float_close left : left <> [] -> Forall in_unit left ->
  Forall in_unit (FH_row_float left) /\ within (pow2 (-53)) (FH_row_float left) (FH_row (map val left)).
Proof.
  intros N U. destruct pow54 as (E53 & P & _). unfold FH_row_float, FH_row. cbv zeta. rewrite map_length.
  assert (M : forall c, in_unit (fsub f1 (fmul (nth (c - 1) left f0) (nth c left f0))) /\
     Rabs (val (fsub f1 (fmul (nth (c - 1) left f0) (nth c left f0))) - (1 - nth (c - 1) (map val left) 0 * nth c (map val left) 0)) <= pow2 (-53)).
  { intros c. rewrite !nth_vals.
    destruct (mul_unit _ _ (nth_unit left (c - 1) U) (nth_unit left c U)) as (U1 & _ & D1).
    destruct (one_minus_unit _ U1) as (U2 & _ & D2). split; [exact U2|]. rewrite E53.
    apply Rabs_le_inv in D1. apply Rabs_le_inv in D2. apply Rabs_le. lra. }
  assert (L : forall i, in_unit (fsub f1 (nth i left f0)) /\ Rabs (val (fsub f1 (nth i left f0)) - (1 - nth i (map val left) 0)) <= pow2 (-53)).
  { intros i. rewrite nth_vals. destruct (one_minus_unit _ (nth_unit left i U)) as (U2 & _ & D2). split; [exact U2|]. rewrite E53.
    apply Rle_trans with (1 := D2). lra. }
  split.
  - constructor; [apply nth_unit, U|]. apply Forall_app. split; [|constructor; [apply L|constructor]].
    apply Forall_forall. intros x I. apply in_map_iff in I. destruct I as (c & <- & _). apply M.
  - constructor.
    + rewrite nth_vals, Rminus_diag_eq, Rabs_R0 by reflexivity. apply bpow_ge_0.
    + apply Forall2_app; [|constructor; [apply L|constructor]].
      induction (seq 1 (S (length left) - 2)) as [|c s IH]; cbn [map]; constructor; [apply M|exact IH].
Qed.

(** ** FrankAndHallTreeClassifier *)

Definition near (x : float) (r : R) (k : nat) : Prop :=
  in_unit x /\ 0 <= r <= 1 /\ Rabs (val x - r) <= INR k * pow2 (-54).

Lemma near_mul x r k v : near x r k -> in_unit v -> near (fmul x v) (r * val v) (S k).
Proof.
  intros (U & B & D) V. destruct (mul_unit x v U V) as (U2 & _ & D2). destruct V as (_ & Bv).
  split; [exact U2|]. split; [nra|]. rewrite S_INR. apply Rabs_le_inv in D2.
  assert (D' : Rabs (val x * val v - r * val v) <= INR k * pow2 (-54)).
  { rewrite <- Rmult_minus_distr_r, Rabs_mult, (Rabs_pos_eq (val v)) by lra. pose proof (Rabs_pos (val x - r)). nra. }
  apply Rabs_le_inv in D'. apply Rabs_le. lra.
Qed.

Lemma scale_at_float_length : forall l p v, length (scale_at_float p v l) = length l.
Proof. induction l; intros [|p] v; simpl; auto. Qed.

Lemma scale_at_float_nth : forall l p v i, (i < length l)%nat ->
  nth i (scale_at_float p v l) f0 = if Nat.eqb i p then fmul (nth i l f0) v else nth i l f0.
Proof.
  induction l; intros p v i Hi; [simpl in Hi; lia|]. destruct p, i; simpl; auto. apply IHl. simpl in Hi; lia.
Qed.

Lemma scale_classes_float_length : forall cls classes v probs, length (scale_classes_float classes cls v probs) = length probs.
Proof. unfold scale_classes_float. induction cls; intros; simpl; auto. rewrite IHcls. apply scale_at_float_length. Qed.

Lemma scale_classes_float_nth : forall cls classes v probs i, NoDup classes -> NoDup cls ->
  incl cls classes -> length probs = length classes -> (i < length classes)%nat ->
  nth i (scale_classes_float classes cls v probs) f0 =
  (if in_dec Z.eq_dec (nth i classes 0%Z) cls then fmul (nth i probs f0) v else nth i probs f0).
Proof.
  unfold scale_classes_float. induction cls as [|c t IH]; intros classes v probs i N Nc Inc L Hi; [reflexivity|].
  inversion Nc; subst. cbn [fold_left]. rewrite IH; auto.
  2:{ intros x Hx. apply Inc. right; auto. }
  2:{ rewrite scale_at_float_length; auto. }
  rewrite scale_at_float_nth by lia.
  destruct (In_nth classes c 0%Z (Inc c ltac:(left; auto))) as [j [Hj Ej]].
  assert (Ei : index_of c classes = j) by (rewrite <- Ej; apply index_of_nth; auto). rewrite !Ei. clear Ei.
  destruct (in_dec Z.eq_dec (nth i classes 0%Z) t) as [I|I];
    destruct (in_dec Z.eq_dec (nth i classes 0%Z) (c :: t)) as [I'|I'];
    destruct (Nat.eqb_spec i j) as [E|E]; try reflexivity; exfalso.
  - subst j. rewrite Ej in I. auto.
  - subst j. rewrite Ej in I. auto.
  - apply I'; right; auto.
  - destruct I' as [I'|I']; auto. apply E. apply (NoDup_nth classes 0%Z); auto. congruence.
  - subst j. apply I'. left. auto.
Qed.

Lemma nth_vals_pair ests pos : nth pos (map vals ests) (0, 0) = vals (nth pos ests (f0, f0)).
Proof. change (0, 0) with (vals (f0, f0)). apply map_nth. Qed.

Lemma tree_float_spec : forall t first len, tree_over t first len ->
  forall classes ests sub probs, NoDup classes -> (first + len < length classes)%nat ->
    (sub = [] /\ first = O /\ S len = length classes \/ covers classes sub first len) ->
    length probs = length classes -> Forall unit_pair ests ->
    length (tree_probabilities_float classes ests t sub probs) = length classes /\
    forall i, (i < length classes)%nat ->
      ((first <= i <= first + len)%nat -> forall r k, near (nth i probs f0) r k ->
        near (nth i (tree_probabilities_float classes ests t sub probs) f0) (r * path_probability (map vals ests) t i)
             (k + path_length t i)) /\
      (~ (first <= i <= first + len)%nat -> nth i (tree_probabilities_float classes ests t sub probs) f0 = nth i probs f0).
Proof.
  induction 1 as [first|first k m l r Hl IHl Hr IHr]; intros classes ests sub probs N Hb Hs Lp U.
  - simpl. split; auto. intros i Hi. split; [|reflexivity]. intros _ r k H. rewrite Rmult_1_r, Nat.add_0_r. exact H.
  - cbn [tree_probabilities_float]. cbv zeta.
    set (pos := (first + k)%nat) in *.
    set (sl := match sub with [] => firstn (S pos) classes | _ => setdiff1d sub (skipn (S pos) classes) end).
    set (sr := match sub with [] => skipn (S pos) classes | _ => setdiff1d sub (firstn (S pos) classes) end).
    assert (Cl : covers classes sl first k).
    { destruct Hs as [[-> [-> Hlen]]|[Ns [Inc C]]].
      - unfold sl. split; [|split].
        + rewrite <- (firstn_skipn (S pos) classes) in N. apply NoDup_app_l in N. auto.
        + intros x Hx. eapply in_firstn; eauto.
        + intros i Hi. rewrite in_firstn_pos by auto. lia.
      - assert (sub <> []).
        { intro E. assert (G : In (nth first classes 0%Z) sub) by (apply C; lia). rewrite E in G. auto. }
        unfold sl. destruct sub as [|s0 sub']; [congruence|]. split; [|split].
        + apply setdiff_NoDup.
        + intros x Hx. apply setdiff_in in Hx. apply Inc. tauto.
        + intros i Hi. rewrite setdiff_in, C, in_skipn_pos by auto. lia. }
    assert (Cr : covers classes sr (S pos) m).
    { destruct Hs as [[-> [-> Hlen]]|[Ns [Inc C]]].
      - unfold sr. split; [|split].
        + rewrite <- (firstn_skipn (S pos) classes) in N. apply NoDup_app_r in N. auto.
        + intros x Hx. eapply in_skipn; eauto.
        + intros i Hi. rewrite in_skipn_pos by auto. lia.
      - assert (sub <> []).
        { intro E. assert (G : In (nth first classes 0%Z) sub) by (apply C; lia). rewrite E in G. auto. }
        unfold sr. destruct sub as [|s0 sub']; [congruence|]. split; [|split].
        + apply setdiff_NoDup.
        + intros x Hx. apply setdiff_in in Hx. apply Inc. tauto.
        + intros i Hi. rewrite setdiff_in, C, in_firstn_pos by auto. lia. }
    set (pl := snd (nth pos ests (f0, f0))). set (pr := fst (nth pos ests (f0, f0))).
    assert (Up : in_unit pl /\ in_unit pr).
    { unfold pl, pr. destruct (Nat.lt_ge_cases pos (length ests)) as [H|H].
      - rewrite Forall_forall in U. destruct (U _ (nth_In ests (f0, f0) H)). auto.
      - rewrite nth_overflow by exact H. split; apply unit_f0. }
    set (p1 := scale_classes_float classes sl pl probs).
    set (p2 := scale_classes_float classes sr pr p1).
    assert (L1 : length p1 = length classes) by (unfold p1; rewrite scale_classes_float_length; auto).
    assert (L2 : length p2 = length classes) by (unfold p2; rewrite scale_classes_float_length; auto).
    destruct (IHl classes ests sl p2 N ltac:(lia) ltac:(right; auto) L2 U) as [L3 V3].
    destruct (IHr classes ests sr _ N ltac:(lia) ltac:(right; auto) L3 U) as [L4 V4].
    split; auto. intros i Hi. destruct (V3 i Hi) as (V3a & V3b). destruct (V4 i Hi) as (V4a & V4b).
    assert (P2 : nth i p2 f0 = if in_dec Z.eq_dec (nth i classes 0%Z) sr then fmul (nth i p1 f0) pr else nth i p1 f0).
    { unfold p2. destruct Cr as [Nr [Ir _]]. apply scale_classes_float_nth; auto. }
    assert (P1 : nth i p1 f0 = if in_dec Z.eq_dec (nth i classes 0%Z) sl then fmul (nth i probs f0) pl else nth i probs f0).
    { unfold p1. destruct Cl as [Nl [Il _]]. apply scale_classes_float_nth; auto. }
    destruct Cl as [_ [_ CL]]. destruct Cr as [_ [_ CR]]. specialize (CL i Hi). specialize (CR i Hi).
    split.
    + intros Ri r0 k0 H0. cbn [path_probability path_length]. rewrite nth_vals_pair.
      change (snd (vals (nth pos ests (f0, f0)))) with (val pl). change (fst (vals (nth pos ests (f0, f0)))) with (val pr).
      destruct (Nat.leb_spec i pos) as [Hp|Hp].
      * rewrite V4b by lia.
        replace (r0 * (val pl * path_probability (map vals ests) l i)) with (r0 * val pl * path_probability (map vals ests) l i) by ring.
        replace (k0 + S (path_length l i))%nat with (S k0 + path_length l i)%nat by lia.
        apply V3a; [lia|]. rewrite P2, P1.
        destruct (in_dec _ _ sr) as [I2|I2]; [apply CR in I2; lia|].
        destruct (in_dec _ _ sl) as [I1|I1]; [|exfalso; apply I1, CL; lia]. apply near_mul; [exact H0|apply Up].
      * replace (r0 * (val pr * path_probability (map vals ests) r i)) with (r0 * val pr * path_probability (map vals ests) r i) by ring.
        replace (k0 + S (path_length r i))%nat with (S k0 + path_length r i)%nat by lia.
        apply V4a; [lia|]. rewrite V3b, P2, P1 by lia.
        destruct (in_dec _ _ sl) as [I1|I1]; [apply CL in I1; lia|].
        destruct (in_dec _ _ sr) as [I2|I2]; [|exfalso; apply I2, CR; lia]. apply near_mul; [exact H0|apply Up].
    + intros Ri. rewrite V4b, V3b, P2, P1 by lia.
      destruct (in_dec _ _ sr) as [I2|I2]; [apply CR in I2; lia|].
      destruct (in_dec _ _ sl) as [I1|I1]; [apply CL in I1; lia|]. reflexivity.
Qed.

Lemma FHT_float_length classes ests scores : NoDup classes -> length classes = S (length scores) -> Forall unit_pair ests ->
  length (FHT_float classes (make_tree scores) ests) = length classes.
Proof.
  intros N L U. unfold FHT_float, make_tree.
  apply (tree_float_spec _ 0 (length scores)
             (build_tree_over (length scores) scores 0 (length scores) ltac:(lia) ltac:(lia))
             classes ests [] (repeat f1 (length classes)) N ltac:(lia) ltac:(left; auto) ltac:(apply repeat_length) U).
Qed.

Lemma FHT_float_row classes ests scores i : NoDup classes -> length classes = S (length scores) -> Forall unit_pair ests ->
  (i < length classes)%nat ->
  in_unit (nth i (FHT_float classes (make_tree scores) ests) f0) /\
  Rabs (val (nth i (FHT_float classes (make_tree scores) ests) f0) - path_probability (map vals ests) (make_tree scores) i)
    <= INR (path_length (make_tree scores) i) * pow2 (-54).
Proof.
  intros N L U Hi. unfold FHT_float, make_tree.
  destruct (tree_float_spec _ 0 (length scores)
             (build_tree_over (length scores) scores 0 (length scores) ltac:(lia) ltac:(lia))
             classes ests [] (repeat f1 (length classes)) N ltac:(lia) ltac:(left; auto) ltac:(apply repeat_length) U) as [_ V].
  destruct (V i Hi) as (V1 & _). specialize (V1 ltac:(lia) 1 O).
  destruct V1 as (A & _ & B).
  - assert (E : nth i (repeat f1 (length classes)) f0 = f1).
    { clear -Hi. revert i Hi. induction (length classes); intros [|i] Hi; simpl; auto; try lia. apply IHn; lia. }
    rewrite E. destruct unit_f1 as (U1 & V1). split; [exact U1|]. rewrite V1. split; [lra|].
    rewrite Rminus_diag_eq, Rabs_R0 by reflexivity. simpl. lra.
  - split; [exact A|]. rewrite Rmult_1_l, Nat.add_0_l in B. exact B.
Qed.

Lemma path_length_over : forall t first len, tree_over t first len -> forall c, (path_length t c <= len)%nat.
Proof.
  induction 1; intros c; cbn [path_length]; [lia|]. specialize (IHtree_over1 c). specialize (IHtree_over2 c).
  destruct (Nat.leb _ _); lia.
Qed.

Lemma path_length_bound scores c : (path_length (make_tree scores) c <= length scores)%nat.
Proof. apply (path_length_over _ 0). apply build_tree_over; lia. Qed.

(** ** Sums *)

Lemma complementary_vals p : complementary_pair p -> 0 <= val (fst p) <= 1 /\ 0 <= val (snd p) <= 1 /\ Rabs (val (fst p) + val (snd p) - 1) <= pow2 (-53).
Proof.
  intros ((Fa & Ba) & (Fb & Bb) & S). split; [exact Ba|]. split; [exact Bb|].
  destruct (fadd_ok (fst p) (snd p) Fa Fb) as (_ & V); [apply big4; rewrite Rabs_pos_eq; lra|].
  rewrite S in V. set (s := val (fst p) + val (snd p)) in *.
  assert (E : Rabs (nearest s - s) <= pow2 (-53)).
  { assert (B : 0 <= s / 2 <= 1) by (unfold s; lra). destruct pow54 as (E53 & P & _).
    destruct (Rle_dec s 1) as [L|L].
    - apply Rle_trans with (pow2 (-54)); [apply nearest_error_unit; rewrite Rabs_pos_eq; lra|lra].
    - apply Rle_trans with (1 := error_le_half_ulp radix2 (FLT_exp (-1074) 53) (fun z => negb (Z.even z)) s).
      rewrite ulp_neq_0 by lra. change (pow2 (-53)) with (pow2 (-1 + -52)). rewrite bpow_plus.
      apply Rmult_le_compat; [lra|apply bpow_ge_0|cbn; lra|]. apply bpow_le. unfold cexp, FLT_exp.
      assert (mag radix2 s <= 1)%Z; [|lia]. destruct (Rle_lt_or_eq_dec s 2) as [Ls|Ls]; [unfold s; lra| |].
      + apply mag_le_bpow; [lra|]. rewrite Rabs_pos_eq by lra. cbn. lra.
      + exfalso. rewrite Ls in V. assert (G : nearest 2 = 2); [|lra]. apply nearest_id. apply (format_Z 2). lia. }
  rewrite <- V in E. rewrite Rabs_minus_sym. exact E.
Qed.

Lemma path_sum_close : forall t first len, tree_over t first len -> forall ests e, 0 <= e -> 2 * INR len * e <= 1 ->
  (forall j, (first <= j < first + len)%nat ->
     0 <= fst (nth j ests (0, 0)) <= 1 /\ 0 <= snd (nth j ests (0, 0)) <= 1 /\ Rabs (fst (nth j ests (0, 0)) + snd (nth j ests (0, 0)) - 1) <= e) ->
  Rabs (sumn (S len) (fun i => path_probability ests t (first + i)) - 1) <= 2 * INR len * e.
Proof.
  induction 1 as [first|first k m l r Hl IHl Hr IHr]; intros ests e He Hs Hc.
  - simpl. rewrite Rplus_0_l, Rminus_diag_eq, Rabs_R0 by reflexivity. lra.
  - rewrite S_INR, plus_INR in *. pose proof (pos_INR k) as Pk. pose proof (pos_INR m) as Pm.
    specialize (IHl ests e He ltac:(nra) ltac:(intros; apply Hc; lia)).
    specialize (IHr ests e He ltac:(nra) ltac:(intros; apply Hc; lia)).
    destruct (Hc (first + k)%nat ltac:(lia)) as [A [B C]].
    set (pl := snd (nth (first + k) ests (0, 0))) in *. set (pr := fst (nth (first + k) ests (0, 0))) in *.
    replace (S (S (k + m))) with (S k + S m)%nat by lia. rewrite sumn_split.
    rewrite (sumn_ext _ _ (fun i => pl * path_probability ests l (first + i))).
    2:{ intros i Hi. cbn [path_probability]. fold pl pr. destruct (Nat.leb_spec (first + i) (first + k)); auto; lia. }
    rewrite (sumn_ext (S m) _ (fun i => pr * path_probability ests r (S (first + k) + i))).
    2:{ intros i Hi. cbn [path_probability]. fold pl pr. destruct (Nat.leb_spec (first + (S k + i)) (first + k)); [lia|].
        f_equal. f_equal. lia. }
    rewrite !sumn_scal.
    set (sl := sumn (S k) (fun i => path_probability ests l (first + i))) in *.
    set (sr := sumn (S m) (fun i => path_probability ests r (S (first + k) + i))) in *.
    apply Rabs_le_inv in IHl. apply Rabs_le_inv in IHr. apply Rabs_le_inv in C.
    assert (G1 : Rabs (pl * (sl - 1)) <= 2 * INR k * e).
    { rewrite Rabs_mult, (Rabs_pos_eq pl) by lra. assert (Rabs (sl - 1) <= 2 * INR k * e) by (apply Rabs_le; lra).
      pose proof (Rabs_pos (sl - 1)). nra. }
    assert (G2 : Rabs (pr * (sr - 1)) <= 2 * INR m * e).
    { rewrite Rabs_mult, (Rabs_pos_eq pr) by lra. assert (Rabs (sr - 1) <= 2 * INR m * e) by (apply Rabs_le; lra).
      pose proof (Rabs_pos (sr - 1)). nra. }
    apply Rabs_le_inv in G1. apply Rabs_le_inv in G2. apply Rabs_le. split; nra.
Qed.

Lemma exact_sum_nth l : exact_sum l = sumn (length l) (fun i => val (nth i l f0)).
Proof.
  unfold exact_sum. induction l as [|x l IH]; [reflexivity|]. cbn [map fold_right length]. rewrite sumn_Sl. cbn [nth]. rewrite IH. reflexivity.
Qed.

Lemma sumn_close n f g d : (forall i, (i < n)%nat -> Rabs (f i - g i) <= d) -> Rabs (sumn n f - sumn n g) <= INR n * d.
Proof.
  intros H. rewrite <- sumn_minus. apply Rle_trans with (1 := sumn_Rabs_le _ _).
  rewrite <- sumn_const. apply sumn_le. exact H.
Qed.

Lemma INR_small n : (Z.of_nat n <= 2 ^ 50)%Z -> INR n * pow2 (-50) <= 1.
Proof.
  intros H. rewrite INR_IZR_INZ. apply IZR_le in H.
  assert (E : IZR (2 ^ 50) * pow2 (-50) = 1) by (change (IZR (2 ^ 50)) with (pow2 50); rewrite <- bpow_plus; reflexivity).
  pose proof (bpow_gt_0 radix2 (-50)). nra.
Qed.

Lemma complementary_units ests : Forall complementary_pair ests -> Forall unit_pair ests.
Proof. apply Forall_impl. intros p (A & B & _). split; assumption. Qed.

Lemma FHT_float_sum classes ests scores : NoDup classes -> length classes = S (length scores) ->
  length ests = length scores -> Forall complementary_pair ests -> (Z.of_nat (length classes) <= 2 ^ 50)%Z ->
  Rabs (exact_sum (FHT_float classes (make_tree scores) ests) - 1) <= INR (length classes) * INR (length classes) * pow2 (-52).
Proof.
  intros N L Le C B. pose proof (complementary_units _ C) as U. destruct pow54 as (E53 & P & E52).
  rewrite exact_sum_nth, FHT_float_length by assumption.
  set (n := length classes) in *. set (t := make_tree scores).
  assert (D1 : Rabs (sumn n (fun i => val (nth i (FHT_float classes t ests) f0)) - sumn n (path_probability (map vals ests) t))
               <= INR n * (INR (length scores) * pow2 (-54))).
  { apply sumn_close. intros i Hi. destruct (FHT_float_row classes ests scores i N L U Hi) as (_ & D).
    apply Rle_trans with (1 := D). apply Rmult_le_compat_r; [lra|]. apply le_INR, path_length_bound. }
  assert (Hn : INR n = INR (length scores) + 1) by (rewrite L, S_INR; reflexivity).
  pose proof (INR_small n B) as Sm. pose proof (pos_INR (length scores)) as Pm.
  assert (E50 : pow2 (-50) = 16 * pow2 (-54)) by (change (pow2 (-50)) with (pow2 (4 + -54)); rewrite bpow_plus; reflexivity).
  assert (D2 : Rabs (sumn n (path_probability (map vals ests) t) - 1) <= 2 * INR (length scores) * pow2 (-53)).
  { rewrite L. apply (path_sum_close t 0 (length scores)).
    - apply build_tree_over; lia.
    - lra.
    - rewrite E53. nra.
    - intros j Hj. rewrite nth_vals_pair. apply complementary_vals. rewrite Forall_forall in C. apply C, nth_In. lia. }
  apply Rabs_le_inv in D1. apply Rabs_le_inv in D2. rewrite E52, Hn in *. rewrite E53 in D2.
  set (m := INR (length scores)) in *. set (u := pow2 (-54)) in *.
  assert (G : (m + 1) * (m * u) + 2 * m * (2 * u) <= (m + 1) * (m + 1) * (4 * u)) by (assert (0 <= m * m) by nra; nra).
  apply Rabs_le. lra.
Qed.

Lemma FHT_float_units classes ests scores : NoDup classes -> length classes = S (length scores) -> Forall unit_pair ests ->
  Forall in_unit (FHT_float classes (make_tree scores) ests).
Proof.
  intros N L U. apply Forall_forall. intros x I. apply (In_nth _ _ f0) in I. destruct I as (i & Hi & <-).
  rewrite FHT_float_length in Hi by assumption. apply FHT_float_row; assumption.
Qed.

(** ** OrdinalQuantificationTree *)

Lemma OQT_float_length np_sum classes t examples : length (OQT_float np_sum classes t examples) = length classes.
Proof. unfold OQT_float, PCC_float. rewrite map_length, seq_length. reflexivity. Qed.

Lemma OQT_float_accuracy np_sum classes scores examples j : adds_in_some_order np_sum -> NoDup classes ->
  length classes = S (length scores) -> examples <> [] -> Forall (Forall unit_pair) examples ->
  (Z.of_nat (length examples) <= 2 ^ 50)%Z -> (j < length classes)%nat ->
  in_unit (nth j (OQT_float np_sum classes (make_tree scores) examples) f0) /\
  Rabs (val (nth j (OQT_float np_sum classes (make_tree scores) examples) f0)
        - rmean (map (fun e => path_probability (map vals e) (make_tree scores) j) examples))
    <= INR (length examples + length classes) * pow2 (-52).
Proof.
  intros A N L Ne U B J. destruct pow54 as (E53 & P & E52).
  destruct (PCC_float_accuracy np_sum (length classes) (map (FHT_float classes (make_tree scores)) examples) j A) as (V & D).
  - destruct examples; [congruence|discriminate].
  - apply Forall_forall. intros r I. apply in_map_iff in I. destruct I as (e & <- & I). apply FHT_float_units; try assumption.
    rewrite Forall_forall in U. apply U, I.
  - rewrite map_length. exact B.
  - exact J.
  - split; [exact V|]. fold (OQT_float np_sum classes (make_tree scores) examples) in D. rewrite map_length in D.
    set (x := val _) in *.
    assert (M : Rabs (exact_mean (fcol j (map (FHT_float classes (make_tree scores)) examples))
                 - rmean (map (fun e => path_probability (map vals e) (make_tree scores) j) examples)) <= INR (length scores) * pow2 (-54)).
    { unfold exact_mean, rmean, fcol. rewrite !map_length.
      set (Ex := exact_sum _). set (Re := rsum _).
      assert (Pn : 0 < INR (length examples)) by (apply lt_0_INR; destruct examples; [congruence|cbn; lia]).
      assert (G : Rabs (Ex - Re) <= INR (length examples) * (INR (length scores) * pow2 (-54))).
      { unfold Ex, Re, exact_sum. clear -U N L P J. induction U as [|e es He _ IH].
        - cbn. rewrite Rminus_0_r, Rabs_R0. lra.
        - cbn [map fold_right rsum length]. destruct (FHT_float_row classes e scores j N L He J) as (_ & D).
          assert (D' : Rabs (val (nth j (FHT_float classes (make_tree scores) e) f0) - path_probability (map vals e) (make_tree scores) j) <= INR (length scores) * pow2 (-54)).
          { apply Rle_trans with (1 := D). apply Rmult_le_compat_r; [lra|]. apply le_INR, path_length_bound. }
          rewrite S_INR. apply Rabs_le_inv in D'. apply Rabs_le_inv in IH. apply Rabs_le. lra. }
      replace (Ex / INR (length examples) - Re / INR (length examples)) with ((Ex - Re) / INR (length examples)) by (field; lra).
      unfold Rdiv. rewrite Rabs_mult, (Rabs_pos_eq (/ _)) by (left; apply Rinv_0_lt_compat, Pn).
      apply Rmult_le_reg_r with (1 := Pn). rewrite Rmult_assoc, Rinv_l by lra. lra. }
    assert (Hn : INR (length classes) = INR (length scores) + 1) by (rewrite L, S_INR; reflexivity).
    rewrite plus_INR in *. rewrite Hn, E52 in *. simpl (INR 1) in D. pose proof (pos_INR (length scores)).
    apply Rabs_le_inv in D. apply Rabs_le_inv in M. apply Rabs_le. nra.
Qed.

Lemma OQT_float_sum np_sum classes scores examples : adds_in_some_order np_sum -> NoDup classes ->
  length classes = S (length scores) -> examples <> [] ->
  Forall (fun e => length e = length scores /\ Forall complementary_pair e) examples ->
  (Z.of_nat (length examples) <= 2 ^ 50)%Z -> (Z.of_nat (length classes) <= 2 ^ 50)%Z ->
  Rabs (exact_sum (OQT_float np_sum classes (make_tree scores) examples) - 1)
    <= INR (length classes) * INR (length examples + length classes + 1) * pow2 (-52).
Proof.
  intros A N L Ne U B Bc. destruct pow54 as (E53 & P & E52).
  assert (U' : Forall (Forall unit_pair) examples).
  { revert U. apply Forall_impl. intros e (_ & C). apply complementary_units, C. }
  rewrite exact_sum_nth, OQT_float_length.
  set (n := length classes) in *. set (t := make_tree scores) in *.
  assert (D1 : Rabs (sumn n (fun j => val (nth j (OQT_float np_sum classes t examples) f0))
                - sumn n (fun j => rmean (map (fun e => path_probability (map vals e) t j) examples)))
               <= INR n * (INR (length examples + n) * pow2 (-52))).
  { apply sumn_close. intros j Hj. apply OQT_float_accuracy; assumption. }
  assert (D2 : Rabs (sumn n (fun j => rmean (map (fun e => path_probability (map vals e) t j) examples)) - 1) <= 2 * INR (length scores) * pow2 (-53)).
  { assert (Pn : 0 < INR (length examples)) by (apply lt_0_INR; destruct examples; [congruence|cbn; lia]).
    unfold rmean. rewrite (sumn_ext _ _ (fun j => rsum (map (fun e => path_probability (map vals e) t j) examples) / INR (length examples)))
      by (intros; rewrite map_length; reflexivity). rewrite sumn_div.
    set (S := sumn n _).
    assert (G : Rabs (S - INR (length examples)) <= INR (length examples) * (2 * INR (length scores) * pow2 (-53))).
    { unfold S. clear -U N L P Bc E53. induction U as [|e es (Le & He) _ IH].
      - cbn [map rsum length]. rewrite sumn_const. simpl. rewrite Rmult_0_r, Rminus_0_r, Rabs_R0. lra.
      - cbn [map rsum length]. rewrite sumn_plus.
        assert (D : Rabs (sumn n (path_probability (map vals e) t) - 1) <= 2 * INR (length scores) * pow2 (-53)).
        { unfold n in *. rewrite L. apply (path_sum_close t 0 (length scores)).
          - apply build_tree_over; lia.
          - lra.
          - pose proof (INR_small _ Bc) as Sm. rewrite L, S_INR in Sm. pose proof (pos_INR (length scores)).
            assert (E50 : pow2 (-50) = 16 * pow2 (-54)) by (change (pow2 (-50)) with (pow2 (4 + -54)); rewrite bpow_plus; reflexivity).
            rewrite E53. nra.
          - intros j Hj. rewrite nth_vals_pair. apply complementary_vals. rewrite Forall_forall in He. apply He, nth_In. lia. }
        rewrite S_INR. apply Rabs_le_inv in D. apply Rabs_le_inv in IH. apply Rabs_le. lra. }
    replace (S / INR (length examples) - 1) with ((S - INR (length examples)) / INR (length examples)) by (field; lra).
    unfold Rdiv. rewrite Rabs_mult, (Rabs_pos_eq (/ _)) by (left; apply Rinv_0_lt_compat, Pn).
    apply Rmult_le_reg_r with (1 := Pn). rewrite Rmult_assoc, Rinv_l, Rmult_1_r, (Rmult_comm _ (INR (length examples))) by lra. exact G. }
  assert (Hn : INR n = INR (length scores) + 1) by (rewrite L, S_INR; reflexivity).
  rewrite !plus_INR in *. simpl (INR 1). pose proof (pos_INR (length scores)). rewrite E53 in D2. rewrite E52 in *.
  apply Rabs_le_inv in D1. apply Rabs_le_inv in D2.
  assert (G : 2 * INR (length scores) * (2 * pow2 (-54)) <= INR n * (4 * pow2 (-54))) by (rewrite Hn; nra).
  apply Rabs_le. nra.
Qed.
