(** * emd_score in double precision; different rows at distance zero. *)

From Coq Require Import Reals ZArith List Permutation Lia Lra Bool Psatz.
From Flocq Require Import Core BinarySingleNaN Relative Plus_error.
From Verif Require Import Num Spec L_Num M_Baselines M_Metrics Spec_Metrics L_Metrics L_Metrics2 M_Float M_Float2 M_Float3 M_Float4 M_Float6 Spec_Float L_Float L_Float2 L_Float3 L_Float4 L_Float5 L_Float6 L_Float7 L_Float8 L_Float9 L_Float10 L_Float11 L_Float12 L_Float13 L_Float14 L_Float15 L_Float16 L_Float18 L_Float22 L_Float23.
Import ListNotations.
Open Scope R_scope.

Local Notation pow2 := (bpow radix2).

Lemma left_mass_val n : map val (left_mass_float n) = left_mass n.
Proof.
  unfold left_mass_float, left_mass, tabulate. rewrite map_map. apply map_ext. intros i.
  destruct (Nat.eqb i 0); [apply f1_ok|apply f0_ok].
Qed.

Lemma right_mass_val n : map val (right_mass_float n) = right_mass n.
Proof.
  unfold right_mass_float, right_mass, tabulate. rewrite map_map. apply map_ext. intros i.
  destruct (Nat.eqb (S i) n); [apply f1_ok|apply f0_ok].
Qed.

Lemma exact_rsum l : exact_sum l = rsum (map val l).
Proof. unfold exact_sum. induction l as [|x l IH]; cbn; [reflexivity|]. now rewrite IH. Qed.

Lemma mass_unit (f : nat -> bool) n : Forall in_unit (map (fun i => if f i then f1 else f0) (seq 0 n)).
Proof. apply Forall_forall. intros x I. apply in_map_iff in I. destruct I as (i & <- & _). destruct (f i); [apply f1_unit|apply f0_unit]. Qed.

Lemma far_from_one_end n p : (2 <= n)%nat ->
  INR (n - 1) / 2 <= Rmax (emd_value n p (concentrated n 0)) (emd_value n p (concentrated n (n - 1))).
Proof.
  intros Hn. set (L := concentrated n 0). set (R := concentrated n (n - 1)).
  assert (T : emd_value n L R <= emd_value n p L + emd_value n p R).
  { unfold emd_value. rewrite <- sumn_plus. apply sumn_le. intros k _. 
    pose proof (Rabs_triang (cum L k - cum p k) (cum p k - cum R k)) as T. rewrite (Rabs_minus_sym (cum L k)) in T.
    replace (cum L k - cum p k + (cum p k - cum R k)) with (cum L k - cum R k) in T by ring. exact T. }
  assert (E : emd_value n L R = INR (n - 1)).
  { unfold L, R. rewrite (emd_concentrated n (concentrated n 0) (n - 1)) by (try apply concentrated_dist; lia).
    rewrite (sumn_single n 0); [|lia|].
    2:{ intros j Hj Hne. rewrite concentrated_nth by lia. destruct (Nat.eqb_spec j 0); [congruence|]. ring. }
    rewrite concentrated_nth by lia. cbn [Nat.eqb]. change (INR 0) with 0. rewrite Rminus_0_l, Rabs_Ropp, Rabs_right; [ring|]. apply Rle_ge, pos_INR. }
  pose proof (Rmax_l (emd_value n p L) (emd_value n p R)). pose proof (Rmax_r (emd_value n p L) (emd_value n p R)). lra.
Qed.

Section Score.
  Context (np_sum : list float -> float) (p q : list float).
  Context (A : adds_in_some_order np_sum) (Lpq : length p = length q) (N2 : (2 <= length p)%nat) (N40 : (Z.of_nat (length p) <= 2 ^ 40)%Z).
  Context (Up : Forall in_unit p) (Uq : Forall in_unit q) (Sp : exact_sum p <= 2) (Sq : exact_sum q <= 2).

  Let n := length p.
  Let el := emd_float np_sum p (left_mass_float (length p)).
  Let er := emd_float np_sum p (right_mass_float (length p)).
  Let m := if flt el er then er else el.
  Let e := emd_float np_sum p q.
  Let M := Rmax (emd_value n (map val p) (concentrated n 0)) (emd_value n (map val p) (concentrated n (n - 1))).
  Let E := emd_value n (map val p) (map val q).
  Let eta := 5 * INR n ^ 2 * pow2 (-52).

  Lemma one_emd r : length r = length p -> Forall in_unit r -> exact_sum r <= 2 ->
    finite (emd_float np_sum p r) /\ 0 <= val (emd_float np_sum p r) /\ 0 <= emd_value n (map val p) (map val r) <= 2 * INR n /\
    Rabs (val (emd_float np_sum p r) - emd_value n (map val p) (map val r)) <= eta.
  Proof using A N2 N40 Up Sp. clear Lpq.
    intros L U S. assert (NE : p <> []) by (intros Hn; pose proof N2 as G; rewrite Hn in G; cbn in G; lia).
    destruct (emd_accuracy np_sum p r A NE ltac:(lia) N40 Up U Sp S) as (F & V & d & Ed & R & C).
    rewrite (emd_value_emd n) in Ed by (rewrite ?map_length; unfold n; lia). injection Ed as <-. auto.
  Qed.

  Lemma eta_small : 0 < eta <= INR n / 512 /\ 2 <= INR n.
  Proof using N2 N40. clear Lpq.
    pose proof (small_error n N40) as S. assert (n2 : 2 <= INR n) by (change 2 with (INR 2); apply le_INR; exact N2).
    unfold eta. rewrite ulp52. pose proof ulp1_bounds as (u0 & u1). replace (5 * INR n ^ 2 * (2 * ulp1)) with (10 * (INR n * (INR n * ulp1))) by ring.
    assert (0 < INR n * ulp1) by (apply Rmult_lt_0_compat; lra).
    assert (0 < INR n * (INR n * ulp1)) by (apply Rmult_lt_0_compat; lra).
    assert (INR n * (INR n * ulp1) <= INR n * (1/8192)) by (apply Rmult_le_compat_l; lra). split; [split|]; lra.
  Qed.

  Lemma el_close : finite el /\ 0 <= val el /\ Rabs (val el - emd_value n (map val p) (concentrated n 0)) <= eta.
  Proof using A N2 N40 Up Sp. clear Lpq.
    assert (S : exact_sum (left_mass_float (length p)) <= 2).
    { rewrite exact_rsum, left_mass_val, left_mass_conc. destruct (concentrated_dist n 0 ltac:(unfold n; lia)) as (_ & _ & S). fold n. rewrite S. lra. }
    destruct (one_emd (left_mass_float (length p))) as (F & V & _ & C); [unfold left_mass_float; now rewrite map_length, seq_length|apply mass_unit|exact S|].
    rewrite left_mass_val, left_mass_conc in C. auto.
  Qed.

  Lemma er_close : finite er /\ 0 <= val er /\ Rabs (val er - emd_value n (map val p) (concentrated n (n - 1))) <= eta.
  Proof using A N2 N40 Up Sp. clear Lpq.
    assert (S : exact_sum (right_mass_float (length p)) <= 2).
    { rewrite exact_rsum, right_mass_val, right_mass_conc by lia. destruct (concentrated_dist n (n - 1) ltac:(unfold n; lia)) as (_ & _ & S). fold n. rewrite S. lra. }
    destruct (one_emd (right_mass_float (length p))) as (F & V & _ & C); [unfold right_mass_float; now rewrite map_length, seq_length|apply (mass_unit (fun i => Nat.eqb (Datatypes.S i) (length p)))|exact S|].
    rewrite right_mass_val, right_mass_conc in C by lia. auto.
  Qed.

  Lemma m_close : finite m /\ Rabs (val m - M) <= eta /\ INR n / 8 <= val m /\ INR n / 4 <= M.
  Proof using A N2 N40 Up Sp. clear Lpq.
    destruct el_close as (Fl & _ & Cl). destruct er_close as (Fr & _ & Cr). destruct eta_small as (H & n2).
    pose proof (far_from_one_end n (map val p) N2) as Far. fold M in Far.
    assert (I : INR (n - 1) = INR n - 1) by (rewrite minus_INR by (unfold n; lia); reflexivity).
    assert (C : finite m /\ Rabs (val m - M) <= eta).
    { unfold m, M. apply Rabs_le_inv in Cl, Cr. destruct (flt el er) eqn:F.
      - apply flt_ok in F; auto. split; [exact Fr|]. unfold Rmax. destruct (Rle_dec _ _); apply Rabs_le; lra.
      - apply flt_false in F; auto. split; [exact Fl|]. unfold Rmax. destruct (Rle_dec _ _); apply Rabs_le; lra. }
    destruct C as (Fm & Cm). split; [exact Fm|]. split; [exact Cm|]. apply Rabs_le_inv in Cm. split; lra.
  Qed.

  Lemma score_bits : finite (emd_score_float np_sum p q) /\ val (emd_score_float np_sum p q) <= 1 /\
    exists s, emd_score (map val p) (map val q) = Val s /\ Rabs (val (emd_score_float np_sum p q) - s) <= INR n * pow2 (-42).
  Proof using A Lpq N2 N40 Up Uq Sp Sq.
    destruct (one_emd q ltac:(lia) Uq Sq) as (Fe & Ve & RE & Ce). destruct m_close as (Fm & Cm & Lm & LM). destruct eta_small as ((h0 & h1) & n2).
    fold e in Fe, Ve, Ce. fold E in RE, Ce. change (emd_score_float np_sum p q) with (fdiv (fsub m e) m).
    assert (m0 : 0 < val m) by lra. assert (Nb : INR n <= IZR (2 ^ 40)) by (rewrite INR_IZR_INZ; apply IZR_le, N40).
    assert (n0 : 0 < INR n) by lra. set (k := INR n) in *.
    (* sizes, relative to n *)
    assert (kM : M <= 2 * k).
    { unfold M. destruct (concentrated_dist n 0 ltac:(unfold n; lia)) as (L0 & P0 & S0). destruct (concentrated_dist n (n - 1) ltac:(unfold n; lia)) as (L1 & P1 & S1).
      apply Rmax_lub.
      - assert (S : exact_sum (left_mass_float n) <= 2) by (rewrite exact_rsum, left_mass_val, left_mass_conc; rewrite S0; lra).
        destruct (one_emd (left_mass_float n)) as (_ & _ & B & _); [unfold left_mass_float; now rewrite map_length, seq_length|apply mass_unit|exact S|]. rewrite left_mass_val, left_mass_conc in B. apply B.
      - assert (S : exact_sum (right_mass_float n) <= 2) by (rewrite exact_rsum, right_mass_val, right_mass_conc by (unfold n; lia); rewrite S1; lra).
        destruct (one_emd (right_mass_float n)) as (_ & _ & B & _); [unfold right_mass_float; now rewrite map_length, seq_length|apply (mass_unit (fun i => Nat.eqb (Datatypes.S i) n))|exact S|]. rewrite right_mass_val, right_mass_conc in B by (unfold n; lia). apply B. }
    apply Rabs_le_inv in Cm, Ce.
    assert (B60 : IZR (2 ^ 40) * 8 <= IZR (2 ^ 60)) by (rewrite <- mult_IZR; apply IZR_le; lia).
    destruct (fsub_ok m e Fm Fe) as (Fs & Vs); [apply big, Rabs_le; lra|].
    destruct (sub_error m e) as (d1 & Hd1 & Ed1). pose proof ulp1_bounds as (u0 & u1). apply Rabs_le_inv in Hd1.
    set (s := val (fsub m e)) in *. assert (Vs' : s = (val m - val e) * (1 + d1)) by (rewrite Vs; exact Ed1).
    assert (s1 : s <= val m) by (rewrite Vs; apply nearest_le_format; [apply format_val|lra]).
    assert (Q : Rabs ((val m - val e) / val m) <= 25).
    { unfold Rdiv. rewrite Rabs_mult, (Rabs_right (/ val m)) by (apply Rle_ge, Rlt_le, Rinv_0_lt_compat, m0).
      apply Rmult_le_reg_r with (val m); [exact m0|]. rewrite Rmult_assoc, Rinv_l, Rmult_1_r by lra. apply Rabs_le. lra. }
    assert (Sq' : s / val m = (val m - val e) / val m * (1 + d1)) by (rewrite Vs'; unfold Rdiv; ring).
    assert (Q2 : Rabs (s / val m) <= 26).
    { rewrite Sq', Rabs_mult. assert (Rabs (1 + d1) <= 1 + ulp1) by (apply Rabs_le; lra).
      apply Rle_trans with (25 * (1 + ulp1)); [apply Rmult_le_compat; try apply Rabs_pos; assumption|lra]. }
    destruct (fdiv_ok (fsub m e) m Fs ltac:(lra)) as (Fd & Vd).
    { fold s. apply big. apply Rle_trans with (1 := Q2). apply (IZR_le 26). lia. }
    fold s in Vd. split; [exact Fd|]. split.
    { rewrite Vd. apply nearest_le_format; [apply format_1|]. apply Rmult_le_reg_r with (val m); [exact m0|]. unfold Rdiv. rewrite Rmult_assoc, Rinv_l by lra. lra. }
    exists ((M - E) / M). split.
    { unfold emd_score. rewrite map_length. fold n. rewrite left_mass_conc, right_mass_conc by (unfold n; lia).
      rewrite !(emd_value_emd n) by (try apply conc_len; rewrite ?map_length; unfold n; lia). cbn [obind]. fold M E. apply odiv_nz. lra. }
    rewrite Vd. pose proof (nearest_mixed (s / val m)) as NM.
    assert (NM2 : Rabs (nearest (s / val m) - s / val m) <= 27 * ulp1).
    { apply Rle_trans with (1 := NM). assert (ulp1 * Rabs (s / val m) <= ulp1 * 26) by (apply Rmult_le_compat_l; lra).
      assert (T : pow2 (-1075) <= ulp1) by (unfold ulp1; apply bpow_le; lia). lra. }
    assert (D1 : Rabs (s / val m - (val m - val e) / val m) <= 25 * ulp1).
    { rewrite Sq'. replace ((val m - val e) / val m * (1 + d1) - (val m - val e) / val m) with ((val m - val e) / val m * d1) by ring.
      rewrite Rabs_mult. apply Rmult_le_compat; try apply Rabs_pos; [exact Q|apply Rabs_le; lra]. }
    assert (D2 : Rabs ((val m - val e) / val m - (M - E) / M) <= 72 * (eta / k)).
    { replace ((val m - val e) / val m - (M - E) / M) with ((E * (val m - M) - M * (val e - E)) / (val m * M)) by (field; lra).
      unfold Rdiv at 1. rewrite Rabs_mult, (Rabs_right (/ (val m * M))) by (apply Rle_ge, Rlt_le, Rinv_0_lt_compat, Rmult_lt_0_compat; lra).
      apply Rmult_le_reg_r with (val m * M); [apply Rmult_lt_0_compat; lra|]. rewrite Rmult_assoc, Rinv_l, Rmult_1_r by (apply Rgt_not_eq, Rmult_lt_0_compat; lra).
      assert (T1 : Rabs (E * (val m - M)) <= 8 * M * eta).
      { rewrite Rabs_mult. apply Rmult_le_compat; try apply Rabs_pos; apply Rabs_le; lra. }
      assert (T2 : Rabs (M * (val e - E)) <= M * eta).
      { rewrite Rabs_mult. apply Rmult_le_compat; try apply Rabs_pos; apply Rabs_le; lra. }
      assert (T3 : 72 * (eta / k) * (val m * M) >= 9 * (M * eta)).
      { replace (72 * (eta / k) * (val m * M)) with (72 * (M * eta) * (val m / k)) by (unfold Rdiv; ring).
        assert (1/8 <= val m / k) by (apply Rmult_le_reg_r with k; [exact n0|]; unfold Rdiv; rewrite (Rmult_assoc (val m)), Rinv_l by lra; lra).
        assert (0 < M * eta) by (apply Rmult_lt_0_compat; lra). apply Rle_ge. replace (9 * (M * eta)) with (72 * (M * eta) * (1/8)) by field. apply Rmult_le_compat_l; lra. }
      apply Rabs_le_inv in T1, T2. apply Rabs_le. lra. }
    assert (D3 : 72 * (eta / k) = 720 * (k * ulp1)) by (unfold eta; rewrite ulp52; fold k; field; lra).
    assert (P42 : pow2 (-42) = 2048 * ulp1) by (unfold ulp1; change (-42)%Z with (11 + -53)%Z; rewrite bpow_plus; reflexivity).
    rewrite P42. assert (1 * ulp1 <= k * ulp1) by (apply Rmult_le_compat_r; lra).
    apply Rabs_le_inv in NM2, D1, D2. apply Rabs_le. lra.
  Qed.

  (** The score of the truth itself. *)
  Lemma score_of_truth : emd_score_float np_sum p p = f1.
  Proof using A N2 N40 Up Sp. clear Lpq.
    destruct m_close as (Fm & Cm & Lm & LM). destruct eta_small as (_ & n2). assert (m0 : 0 < val m) by lra.
    change (emd_score_float np_sum p p) with (fdiv (fsub m (emd_float np_sum p p)) m). rewrite nonneg_zero_f0 by (auto; lia).
    destruct f0_ok as (F0 & V0). destruct f1_ok as (F1 & V1).
    assert (S : fsub m f0 = m).
    { destruct m as [s|s| |s mm ee H] eqn:Em; try discriminate Fm; [cbn in m0; lra|]. destruct s.
      - exfalso. unfold val in m0. cbn in m0. assert (F2R (Float radix2 (Z.neg mm) ee) < 0) by (apply F2R_lt_0; reflexivity). lra.
      - reflexivity. }
    rewrite S. destruct (fdiv_ok m m Fm ltac:(lra)) as (Fd & Vd).
    { unfold Rdiv. rewrite Rinv_r by lra. apply big4. rewrite Rabs_R1. lra. }
    unfold Rdiv in Vd. rewrite Rinv_r, nearest_1 in Vd by lra.
    apply B2R_Bsign_inj; [exact Fd|exact F1|change (val (fdiv m m) = val f1); lra|].
    rewrite (sign_of_val (fdiv m m) Fd ltac:(lra)), (sign_of_val f1 F1 ltac:(lra)). f_equal. lra.
  Qed.
End Score.

(** Rows that differ by less than a rounding error of their partial sums are at distance 0 for emd_distances, not for emd. *)
Lemma tiny_difference : exists a b, Forall in_unit a /\ Forall in_unit b /\ length a = 3%nat /\ length b = 3%nat /\ map val a <> map val b /\
  left_to_right a = f1 /\ left_to_right b = f1 /\
  emd_pair_float a b = f0 /\ 0 < val (emd_float numpy_sum a b) /\ emd_score_float numpy_sum a b = f1.
Proof.
  exists [ratio 1 2; two_to (-60); ratio 1 2], [ratio 1 2; two_to (-61); ratio 1 2].
  assert (U : forall x, is_finite x = true -> flt x f0 = false -> flt f1 x = false -> in_unit x) by exact unit_by_order.
  split; [repeat (apply Forall_cons; [apply U; vm_compute; reflexivity|]); constructor|].
  split; [repeat (apply Forall_cons; [apply U; vm_compute; reflexivity|]); constructor|].
  split; [reflexivity|]. split; [reflexivity|]. split.
  { intros H. apply (f_equal (fun l => nth 1 l 0)) in H. change (val (two_to (-60)) = val (two_to (-61))) in H.
    assert (val (two_to (-61)) < val (two_to (-60))) by (apply flt_val; vm_compute; reflexivity). rewrite H in H0. exact (Rlt_irrefl _ H0). }
  split; [apply B2SF_inj; vm_compute; reflexivity|]. split; [apply B2SF_inj; vm_compute; reflexivity|]. split; [apply B2SF_inj; vm_compute; reflexivity|]. split; [|apply B2SF_inj; vm_compute; reflexivity].
  destruct f0_ok as (_ & Z). rewrite <- Z. apply flt_val; vm_compute; reflexivity.
Qed.
