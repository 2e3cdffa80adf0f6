(** * Proofs about the errors of prevalence estimates. *)

From Coq Require Import Reals List ZArith Lia Lra Permutation Bool.
From Verif Require Import Num Spec Spec_Error M_Baselines L_Num L_Baselines.
Import ListNotations.
Open Scope R_scope.

(** ** Clipping *)

Lemma clip01_closer : forall x t, 0 <= t <= 1 -> Rabs (clip01 x - t) <= Rabs (x - t).
Proof.
  intros x t Ht. destruct (Rle_dec x 0).
  - rewrite clip01_low by lra. rewrite !Rabs_left1 by lra. lra.
  - destruct (Rle_dec 1 x).
    + rewrite clip01_high by lra. rewrite !Rabs_pos_eq by lra. lra.
    + rewrite clip01_id by lra. lra.
Qed.

(** Setting negative entries to 0 and dividing by the sum does not increase the error. *)
Lemma clip_normalise_closer : forall n v pi, length v = n -> rsum v = 1 -> distribution_over n pi ->
  let w := map (fun x => if Rlt_dec x 0 then 0 else x) v in
  1 <= rsum w /\ total_error (vdiv w (rsum w)) pi <= total_error v pi.
Proof.
  intros n v pi Hl Hs [Lp [Hp Sp]] w.
  assert (Lw : length w = n) by (unfold w; rewrite map_length; auto).
  assert (Hw : forall i, (i < n)%nat -> nth i w 0 = pos_part (nth i v 0)).
  { intros i Hi. unfold w. rewrite (nth_map_R _ _ _ 0) by lia. reflexivity. }
  assert (Sv : sumn n (fun i => nth i v 0) = 1) by (rewrite sumn_list; auto).
  assert (Sw : sumn n (fun i => nth i w 0) = rsum w) by (apply sumn_list; auto).
  assert (H1 : 1 <= rsum w).
  { rewrite <- Sw, <- Sv. apply sumn_le. intros i Hi. rewrite Hw by auto. apply (pos_part_spec (nth i v 0)). }
  split; auto. unfold total_error. rewrite Lp.
  apply Rle_trans with (sumn n (fun i => (nth i w 0 - nth i w 0 / rsum w) + Rabs (nth i w 0 - nth i pi 0))).
  - apply sumn_le. intros i Hi. unfold vdiv. rewrite (nth_map_R _ _ _ 0) by lia.
    assert (0 <= nth i w 0) by (rewrite Hw by auto; apply pos_part_spec).
    assert (Hd : nth i w 0 / rsum w <= nth i w 0).
    { apply (Rmult_le_reg_r (rsum w)); [lra|]. unfold Rdiv. rewrite Rmult_assoc, Rinv_l by lra. nra. }
    replace (nth i w 0 / rsum w - nth i pi 0) with (- (nth i w 0 - nth i w 0 / rsum w) + (nth i w 0 - nth i pi 0)) by ring.
    eapply Rle_trans; [apply Rabs_triang|]. rewrite Rabs_Ropp, (Rabs_pos_eq (_ - _ / _)) by lra. lra.
  - rewrite sumn_plus, sumn_minus, sumn_div, Sw.
    replace (rsum w - rsum w / rsum w) with (sumn n (fun i => nth i w 0 - nth i v 0)).
    2:{ rewrite sumn_minus, Sw, Sv. field. lra. }
    rewrite <- sumn_plus. apply sumn_le. intros i Hi. rewrite Hw by auto. unfold pos_part.
    assert (0 <= nth i pi 0) by (rewrite Forall_forall in Hp; apply Hp, nth_In; lia).
    destruct (Rlt_dec (nth i v 0) 0).
    + rewrite (Rabs_left1 (0 - nth i pi 0)), (Rabs_left1 (nth i v 0 - nth i pi 0)) by lra. lra.
    + lra.
Qed.

(** ** Adjusted counts *)

Lemma matvec_error : forall n M p0 q0 kappa, length p0 = n -> length q0 = n ->
  (forall j, (j < n)%nat -> sumn n (fun i => Rabs (M i j)) <= kappa) ->
  total_error (matvec n M p0) (matvec n M q0) <= kappa * total_error p0 q0.
Proof.
  intros n M p0 q0 kappa Hp Hq Hk. unfold total_error, matvec. rewrite tabulate_length, Hq.
  apply Rle_trans with (sumn n (fun i => sumn n (fun j => Rabs (M i j) * Rabs (nth j p0 0 - nth j q0 0)))).
  - apply sumn_le. intros i Hi. rewrite !tabulate_nth by auto. rewrite <- sumn_minus.
    eapply Rle_trans; [apply sumn_Rabs_le|]. right. apply sumn_ext. intros j Hj.
    rewrite <- Rmult_minus_distr_l, Rabs_mult. auto.
  - rewrite sumn_swap, <- sumn_scal. apply sumn_le. intros j Hj. rewrite sumn_scal_r.
    apply Rmult_le_compat_r; [apply Rabs_pos|auto].
Qed.

Lemma matvec_inverse : forall n A M pi, inverse_of n A M -> length pi = n ->
  matvec n M (tabulate n (fun j => sumn n (fun i => nth i pi 0 * A j i))) = pi.
Proof.
  intros n A M pi HI Hl. apply list_eq_nth. unfold matvec; rewrite tabulate_length; auto.
  unfold matvec at 1. rewrite tabulate_length. intros i Hi. unfold matvec. rewrite tabulate_nth by auto.
  rewrite (sumn_ext n _ (fun j => sumn n (fun k => nth k pi 0 * (M i j * A j k)))).
  2:{ intros j Hj. rewrite tabulate_nth by auto. rewrite <- sumn_scal. apply sumn_ext. intros; lra. }
  rewrite sumn_swap.
  rewrite (sumn_ext n _ (fun k => nth k pi 0 * delta i k)).
  2:{ intros k Hk. rewrite sumn_scal. f_equal. apply (proj2 (HI i k Hi Hk)). }
  rewrite (sumn_single n i); auto.
  - unfold delta. rewrite Nat.eqb_refl; lra.
  - intros k Hk Hne. unfold delta. destruct (Nat.eqb_spec i k); [congruence|lra].
Qed.

Lemma multi_adjust_error : forall S dist n rows p0 M pi kappa,
  length rows = n -> Forall (fun r => length r = n /\ rsum r = 1) rows ->
  length p0 = n -> rsum p0 = 1 -> distribution_over n pi ->
  inv S n (fun i j => entry rows j i) = Some M ->
  inverse_of n (fun i j => entry rows j i) M ->
  (forall j, (j < n)%nat -> sumn n (fun i => Rabs (M i j)) <= kappa) ->
  exists p, multi_adjust S dist n (map Some rows) p0 = Val p /\ distribution_over n p /\
    total_error p pi <= kappa * total_error p0 (tabulate n (fun j => sumn n (fun i => nth i pi 0 * entry rows i j))).
Proof.
  intros S dist n rows p0 M pi kappa Hr Hrows Hp Hp1 Dpi Hinv HI Hk.
  destruct (multi_adjust_valid S dist n rows p0 M Hr Hrows Hp ltac:(lra) Hinv HI) as [p [E D]].
  exists p. split; auto. split; auto. unfold multi_adjust in E. rewrite all_some_map, Hinv in E.
  assert (Hv : rsum (matvec n M p0) = 1).
  { unfold matvec. rewrite rsum_tabulate, (inverse_mass n _ M (fun j => nth j p0 0) HI).
    - rewrite sumn_list; auto.
    - intros j Hj. rewrite Forall_forall in Hrows.
      destruct (Hrows (nth j rows [])) as [Hl H1]; [apply nth_In; lia|]. unfold entry. rewrite sumn_list; auto. }
  destruct (clip_normalise_closer n (matvec n M p0) pi) as [C1 C2]; auto.
  { unfold matvec. apply tabulate_length. }
  cbv zeta in C1, C2. destruct (Req_EM_T _ 0) in E; [discriminate|]. inversion E; subst p. clear E.
  eapply Rle_trans; [exact C2|].
  rewrite <- (matvec_inverse n _ M pi HI (proj1 Dpi)) at 1. apply matvec_error; auto. apply tabulate_length.
Qed.

Lemma binary_adjust_error : forall r0 r1 t p0 pi, 0 <= pi <= 1 -> 1/1000 < Rabs (nth 1 r1 0 - nth 1 r0 0) ->
  forall i, (i < 2)%nat ->
  Rabs (nth i (binary_adjust (Some r0 :: Some r1 :: t) p0) 0 - nth i [1 - pi; pi] 0) <=
  Rabs (nth 1 p0 0 - ((1 - pi) * nth 1 r0 0 + pi * nth 1 r1 0)) / Rabs (nth 1 r1 0 - nth 1 r0 0).
Proof.
  intros r0 r1 t p0 pi Hpi Hi i Hlt. rewrite binary_adjust_informative by auto.
  assert (Hne : nth 1 r1 0 - nth 1 r0 0 <> 0) by (intro E; rewrite E, Rabs_R0 in Hi; lra).
  set (x := (nth 1 p0 0 - nth 1 r0 0) / (nth 1 r1 0 - nth 1 r0 0)).
  assert (E : Rabs (nth 1 p0 0 - ((1 - pi) * nth 1 r0 0 + pi * nth 1 r1 0)) / Rabs (nth 1 r1 0 - nth 1 r0 0) = Rabs (x - pi)).
  { unfold Rdiv at 1. rewrite <- Rabs_inv, <- Rabs_mult. f_equal. unfold x. field. auto. }
  rewrite E. destruct i as [|[|i]]; [| |lia]; cbn [map nth].
  - replace (Rabs (x - pi)) with (Rabs ((1 - x) - (1 - pi))) by (rewrite <- Rabs_Ropp; f_equal; ring).
    apply clip01_closer. lra.
  - apply clip01_closer. auto.
Qed.

(** The observed frequencies against those expected from the training rates. *)
Lemma drift_sum : forall (classes : list Z) (f g : Z -> nat -> R) y m e, NoDup classes -> y <> [] ->
  (forall x, In x y -> In x classes) ->
  (forall c, In c y -> sumn m (fun j => Rabs (g c j - f c j)) <= e) ->
  sumn m (fun j => Rabs (rsum (map (fun c => fraction c y * g c j) classes) - rsum (map (fun c => fraction c y * f c j) classes))) <= e.
Proof.
  intros classes f g y m e Hnd Hy Hk He.
  apply Rle_trans with (sumn m (fun j => rsum (map (fun c => fraction c y * Rabs (g c j - f c j)) classes))).
  - apply sumn_le. intros j Hj. rewrite <- rsum_map_minus. eapply Rle_trans; [apply rsum_Rabs_le|].
    right. apply rsum_map_ext. intros c Hc. rewrite <- Rmult_minus_distr_l, Rabs_mult. f_equal.
    apply Rabs_pos_eq. apply fraction_range; auto.
  - assert (SW : sumn m (fun j => rsum (map (fun c => fraction c y * Rabs (g c j - f c j)) classes)) =
                 rsum (map (fun c => fraction c y * sumn m (fun j => Rabs (g c j - f c j))) classes)).
    { clear. induction classes as [|c l IH]; simpl; [apply sumn_0; auto|]. rewrite sumn_plus, IH, sumn_scal. auto. }
    rewrite SW.
    apply Rle_trans with (rsum (map (fun c => fraction c y * e) classes)).
    + apply rsum_map_le. intros c Hc. destruct (in_dec Z.eq_dec c y).
      * apply Rmult_le_compat_l; [apply fraction_range; auto|auto].
      * rewrite fraction_absent by auto. lra.
    + rewrite rsum_map_scal_r, fractions_sum by auto. rewrite (proj2 (known_all classes y)) by auto.
      pose proof (length_pos y Hy). right. field. lra.
Qed.

Lemma drift_one : forall (classes : list Z) (f g : Z -> R) y e, NoDup classes -> y <> [] ->
  (forall x, In x y -> In x classes) -> (forall c, In c y -> Rabs (g c - f c) <= e) ->
  Rabs (rsum (map (fun c => fraction c y * g c) classes) - rsum (map (fun c => fraction c y * f c) classes)) <= e.
Proof.
  intros classes f g y e Hnd Hy Hk He.
  pose proof (drift_sum classes (fun c _ => f c) (fun c _ => g c) y 1 e Hnd Hy Hk) as D. simpl in D.
  rewrite Rplus_0_l in D. apply D. intros c Hc. rewrite Rplus_0_l. auto.
Qed.

(** Common core: class-conditional rows [f] learnt from the training set, [g] those of the bag. *)
Lemma adjust_error_binary : forall c0 c1 (f g : Z -> nat -> R) y p0 e,
  NoDup [c0; c1] -> y <> [] -> (forall x, In x y -> In x [c0; c1]) ->
  nth 1 p0 0 = rsum (map (fun c => fraction c y * g c 1%nat) [c0; c1]) ->
  1/1000 < Rabs (f c1 1%nat - f c0 1%nat) ->
  (forall c, In c y -> Rabs (g c 1%nat - f c 1%nat) <= e) ->
  forall i, (i < 2)%nat ->
  Rabs (nth i (binary_adjust (map Some (map (fun c => map (f c) (seq 0 2)) [c0; c1])) p0) 0 -
        nth i (prevalences_of [c0; c1] y) 0) <= e / Rabs (f c1 1%nat - f c0 1%nat).
Proof.
  intros c0 c1 f g y p0 e Hnd Hy Hk Hmix Hinf He i Hi.
  pose proof (fractions_distribution [c0; c1] y Hnd Hy Hk) as [_ [Hnn Hs]]. simpl in Hs.
  pose proof (Forall_inv Hnn) as P0. pose proof (Forall_inv (Forall_inv_tail Hnn)) as P1. simpl in P0, P1.
  assert (EP : prevalences_of [c0; c1] y = [1 - fraction c1 y; fraction c1 y]).
  { unfold prevalences_of. simpl. f_equal. lra. }
  rewrite EP. cbn [map seq].
  eapply Rle_trans; [apply binary_adjust_error; [lra|exact Hinf|exact Hi]|].
  cbn [nth]. apply Rmult_le_compat_r; [left; apply Rinv_0_lt_compat; lra|].
  rewrite Hmix. pose proof (drift_one [c0; c1] (fun c => f c 1%nat) (fun c => g c 1%nat) y e Hnd Hy Hk He) as D.
  simpl in D. replace (1 - fraction c1 y) with (fraction c0 y) by lra. simpl.
  replace (fraction c0 y * f c0 1%nat + fraction c1 y * f c1 1%nat) with
    (fraction c0 y * f c0 1%nat + (fraction c1 y * f c1 1%nat + 0)) by ring. exact D.
Qed.

Lemma adjust_error_multi : forall S dist (classes : list Z) (f g : Z -> nat -> R) y p0 M kappa e,
  oracle_inverts S -> NoDup classes -> y <> [] -> (forall x, In x y -> In x classes) ->
  let n := length classes in
  let rows := map (fun c => map (f c) (seq 0 n)) classes in
  length p0 = n -> rsum p0 = 1 ->
  (forall c, In c classes -> sumn n (f c) = 1) ->
  (forall j, (j < n)%nat -> nth j p0 0 = rsum (map (fun c => fraction c y * g c j) classes)) ->
  inv S n (fun i j => entry rows j i) = Some M ->
  (forall j, (j < n)%nat -> sumn n (fun i => Rabs (M i j)) <= kappa) ->
  (forall c, In c y -> sumn n (fun j => Rabs (g c j - f c j)) <= e) ->
  exists p, multi_adjust S dist n (map Some rows) p0 = Val p /\ distribution_over n p /\
    total_error p (prevalences_of classes y) <= kappa * e.
Proof.
  intros S dist classes f g y p0 M kappa e HO Hnd Hy Hk n rows Hp Hp1 Hrow Hmix HI Hkap He.
  pose proof (fractions_distribution classes y Hnd Hy Hk) as HD.
  assert (Hn : (0 < n)%nat).
  { unfold n. destruct classes; [|simpl; lia]. destruct y; [congruence|]. exfalso. apply (Hk z). left; auto. }
  destruct (multi_adjust_error S dist n rows p0 M (prevalences_of classes y) kappa) as [p [E [D B]]]; auto.
  - unfold rows. apply map_length.
  - apply Forall_forall. intros r Hr. unfold rows in Hr. apply in_map_iff in Hr. destruct Hr as [c [<- Hc]].
    split; [rewrite map_length, seq_length; auto|]. rewrite sumn_seq. auto.
  - exists p. split; auto. split; auto. eapply Rle_trans; [exact B|].
    apply Rmult_le_compat_l.
    + apply Rle_trans with (sumn n (fun i => Rabs (M i O))); [apply sumn_nonneg; intros; apply Rabs_pos|auto].
    + unfold total_error. rewrite tabulate_length.
      eapply Rle_trans; [|apply (drift_sum classes f g y n e Hnd Hy Hk He)]. right. apply sumn_ext. intros j Hj.
      rewrite tabulate_nth, Hmix by auto. do 3 f_equal.
      rewrite (rsum_map_sumn _ classes 0%Z). fold n. apply sumn_ext. intros i Hi.
      unfold rows. rewrite (entry_map_map f classes (seq 0 n) i j 0%Z O) by (try rewrite seq_length; auto).
      rewrite seq_nth by auto. unfold prevalences_of. rewrite (nth_map_R _ _ _ 0%Z) by auto. reflexivity.
Qed.
