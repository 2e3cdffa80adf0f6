(** * Distances between prevalences in double precision: l2 and hd, identity, the triangle inequality. *)

From Coq Require Import Reals ZArith List Permutation Lia Lra Bool Psatz.
From Flocq Require Import Core BinarySingleNaN Relative Plus_error.
From Verif Require Import Num Spec L_Num M_Baselines M_Metrics L_Metrics M_Float M_Float2 M_Float3 M_Float4 Spec_Float L_Float L_Float2 L_Float3 L_Float4 L_Float5 L_Float6 L_Float7 L_Float8 L_Float9 L_Float10 L_Float11 L_Float12 L_Float13 L_Float14.
Import ListNotations.
Open Scope R_scope.

Local Notation pow2 := (bpow radix2).

Lemma fsqrt_ok x : finite x -> 0 <= val x -> finite (fsqrt x) /\ val (fsqrt x) = nearest (sqrt (val x)).
Proof.
  intros F B. destruct (Bsqrt_correct 53 1024 prec_pos prec_small mode_NE x) as (V & Fi & _). split; [|exact V]. unfold finite, fsqrt. rewrite Fi.
  destruct x as [s|s| |s m e H]; try discriminate F; [reflexivity|]. destruct s; [|reflexivity]. exfalso.
  assert (F2R (Float radix2 (Z.neg m) e) < 0) by (apply F2R_lt_0; reflexivity).
  change (0 <= F2R (Float radix2 (Z.neg m) e)) in B. lra.
Qed.

Lemma sqrt_close x S eps eta : 0 <= x -> 0 <= S -> 0 <= eps -> 0 <= eta -> Rabs (x - S) <= eps * S + eta ->
  Rabs (sqrt x - sqrt S) <= 2 * eps * sqrt S + sqrt (2 * eta).
Proof.
  intros Hx HS He Hn D. pose proof (sqrt_pos x) as Px. pose proof (sqrt_pos S) as PS. pose proof (sqrt_pos (2 * eta)) as Pn.
  assert (Q : Rabs (sqrt x - sqrt S) * (sqrt x + sqrt S) = Rabs (x - S)).
  { rewrite <- (Rabs_pos_eq (sqrt x + sqrt S)) by lra. rewrite <- Rabs_mult. f_equal.
    rewrite <- (sqrt_sqrt x Hx) at 3. rewrite <- (sqrt_sqrt S HS) at 3. ring. }
  set (d := Rabs (sqrt x - sqrt S)) in *. assert (d0 : 0 <= d) by apply Rabs_pos.
  assert (dd : d <= sqrt x + sqrt S) by (unfold d; apply Rabs_le; lra).
  assert (eS : 0 <= eps * sqrt S) by (apply Rmult_le_pos; lra).
  destruct (Rle_dec eta (eps * S)) as [C|C].
  - destruct (Req_dec (sqrt S) 0) as [Z|Z].
    + assert (S0 : S = 0) by (rewrite <- (sqrt_sqrt S HS), Z; ring). rewrite S0 in D, C. assert (Rabs (x - 0) <= 0) by lra.
      assert (x = 0) by (pose proof (Rabs_pos (x - 0)); apply Rabs_le_inv in H; lra). unfold d. subst x. rewrite Z, sqrt_0, Rminus_0_r, Rabs_R0. lra.
    + apply Rle_trans with (2 * eps * sqrt S); [|lra]. apply Rmult_le_reg_r with (sqrt S); [lra|].
      replace (2 * eps * sqrt S * sqrt S) with (2 * eps * S) by (rewrite (Rmult_assoc (2 * eps)), (sqrt_sqrt S HS); reflexivity).
      assert (d * sqrt S <= d * (sqrt x + sqrt S)) by (apply Rmult_le_compat_l; lra). lra.
  - apply Rle_trans with (sqrt (2 * eta)); [|lra]. rewrite <- (sqrt_square d d0). apply sqrt_le_1_alt.
    assert (d * d <= d * (sqrt x + sqrt S)) by (apply Rmult_le_compat_l; lra). lra.
Qed.

(** The norm computed by sqrt(sum(...)). *)
Lemma norm_close np_sum g t c p q : adds_in_some_order np_sum -> term_close g t c (pow2 (-1075)) -> Forall in_unit p -> Forall in_unit q -> length p = length q ->
  (Z.of_nat (length p) <= 2 ^ 49)%Z -> 0 <= c <= 4 * ulp1 ->
  let S := rsum (vmap2 t (map val p) (map val q)) in
  finite (fsqrt (np_sum (fmap2 g p q))) /\ 0 <= val (fsqrt (np_sum (fmap2 g p q))) /\ 0 <= S /\
  Rabs (val (fsqrt (np_sum (fmap2 g p q))) - sqrt S) <= INR (2 * length p + 7) * pow2 (-52) * sqrt S + pow2 (-500).
Proof.
  intros A T Up Uq L N Hc S. assert (H0 : 0 < pow2 (-1075)) by apply bpow_gt_0.
  destruct (term_sum np_sum g t c (pow2 (-1075)) p q A T Up Uq L ltac:(lia) Hc ltac:(lra)) as (F & B & C).
  destruct (terms_close g t c (pow2 (-1075)) p q T Up Uq L) as (U & S0 & _). fold S in C, S0.
  set (v := np_sum (fmap2 g p q)) in *. destruct (fsqrt_ok v F ltac:(lra)) as (Fs & Vs). split; [exact Fs|].
  assert (Sv : 0 <= sqrt (val v)) by apply sqrt_pos. split; [rewrite Vs; apply nearest_ge_format; [apply format_0|exact Sv]|]. split; [exact S0|].
  pose proof ulp1_bounds as (u0 & u1). set (k := INR (length p)) in *. assert (k0 : 0 <= k) by apply pos_INR.
  assert (kb : k <= pow2 49). { unfold k. rewrite INR_IZR_INZ. change (pow2 49) with (IZR (2 ^ 49)). apply IZR_le, N. }
  assert (ku : k * ulp1 <= 1/16).
  { apply Rle_trans with (pow2 49 * ulp1); [apply Rmult_le_compat_r; lra|]. unfold ulp1. rewrite <- bpow_plus. cbn. lra. }
  rewrite plus_INR, mult_INR in C. change (INR 2) with 2 in C. change (INR 1) with 1 in C. fold k in C.
  assert (C' : Rabs (val v - S) <= ((2 * k + 5) * ulp1) * S + pow2 (-1025)).
  { apply Rle_trans with (1 := C). assert (((2 * k + 1) * ulp1 + c) * S <= ((2 * k + 5) * ulp1) * S) by (apply Rmult_le_compat_r; lra).
    assert (2 * k * pow2 (-1075) <= pow2 (-1025)).
    { replace (pow2 (-1025)) with (2 * pow2 49 * pow2 (-1075)); [apply Rmult_le_compat_r; lra|].
      change 2 with (bpow radix2 1). rewrite <- !bpow_plus. reflexivity. } lra. }
  pose proof (sqrt_close (val v) S ((2 * k + 5) * ulp1) (pow2 (-1025)) ltac:(lra) S0 ltac:(apply Rmult_le_pos; lra) ltac:(apply bpow_ge_0) C') as Q.
  assert (R : sqrt (2 * pow2 (-1025)) = pow2 (-512)).
  { replace (2 * pow2 (-1025)) with (pow2 (-512) * pow2 (-512)); [apply sqrt_square, bpow_ge_0|]. change 2 with (bpow radix2 1). rewrite <- !bpow_plus. reflexivity. }
  rewrite R in Q. rewrite Vs. pose proof (nearest_mixed (sqrt (val v))) as M. rewrite (Rabs_pos_eq (sqrt (val v))) in M by exact Sv.
  rewrite plus_INR, mult_INR, ulp52. change (INR 2) with 2. replace (INR 7) with 7 by (cbn; lra). fold k.
  set (s := sqrt S) in *. assert (s0 : 0 <= s) by apply sqrt_pos. set (x := sqrt (val v)) in *.
  assert (P5 : pow2 (-500) = 4096 * pow2 (-512)) by (change (-500)%Z with (12 + -512)%Z; rewrite bpow_plus; reflexivity).
  assert (P6 : pow2 (-1075) <= pow2 (-512)) by (apply bpow_le; lia). rewrite P5.
  apply Rabs_le_inv in Q. assert (X : ulp1 * x <= ulp1 * (s + (2 * ((2 * k + 5) * ulp1) * s + pow2 (-512)))) by (apply Rmult_le_compat_l; lra).
  assert (Y : 2 * ((2 * k + 5) * ulp1) * s <= 1 * s) by (apply Rmult_le_compat_r; lra).
  assert (Z : ulp1 * (2 * ((2 * k + 5) * ulp1) * s) <= ulp1 * (1 * s)) by (apply Rmult_le_compat_l; lra).
  assert (W : ulp1 * pow2 (-512) <= 1 * pow2 (-512)) by (apply Rmult_le_compat_r; [apply bpow_ge_0|lra]).
  assert (us : 0 <= ulp1 * s) by (apply Rmult_le_pos; lra).
  apply Rabs_le_inv in M. apply Rabs_le. lra.
Qed.

Lemma l2_accuracy np_sum p q : adds_in_some_order np_sum -> p <> [] -> length p = length q -> (Z.of_nat (length p) <= 2 ^ 49)%Z ->
  Forall in_unit p -> Forall in_unit q ->
  finite (l2_float np_sum p q) /\ 0 <= val (l2_float np_sum p q) /\
  exists d, l2 (vec (map val p)) (vec (map val q)) = Val d /\ 0 <= d /\
    Rabs (val (l2_float np_sum p q) - d) <= INR (2 * length p + 7) * pow2 (-52) * d + pow2 (-500).
Proof.
  intros A E L N Up Uq. pose proof ulp1_bounds as (u0 & u1).
  destruct (norm_close np_sum _ _ (4 * ulp1) p q A square_term Up Uq L N ltac:(lra)) as (F & P & _ & C).
  split; [exact F|]. split; [exact P|]. exists (sqrt (rsum (vmap2 (fun a b => (a - b) ^ 2) (map val p) (map val q)))). split; [|split; [apply sqrt_pos|exact C]].
  unfold l2. rewrite checked_vec; [reflexivity|rewrite !map_length; exact L|apply map_val_nonempty, E].
Qed.

(** ** Hellinger *)

Lemma sqrt_unit a : in_unit a -> in_unit (fsqrt a) /\ Rabs (val (fsqrt a) - sqrt (val a)) <= pow2 (-54).
Proof.
  intros (F & B). destruct (fsqrt_ok a F ltac:(lra)) as (Fs & Vs). pose proof (sqrt_pos (val a)) as P.
  assert (Q : sqrt (val a) <= 1) by (rewrite <- sqrt_1; apply sqrt_le_1_alt; lra).
  rewrite Vs. split; [split; [exact Fs|rewrite Vs; split; [apply nearest_ge_format; [apply format_0|lra]|apply nearest_le_format; [apply format_1|lra]]]|].
  apply nearest_error_unit. rewrite Rabs_pos_eq; lra.
Qed.

Lemma fmap2_map f g l m : fmap2 (fun a b => f (g a) (g b)) l m = fmap2 f (map g l) (map g m).
Proof. revert m. induction l as [|x l IH]; intros [|y m]; try reflexivity. cbn. rewrite IH. reflexivity. Qed.

Lemma norm_lipschitz e l m l' m' : length l = length m -> length l' = length l -> length m' = length m -> 0 <= e ->
  (forall i, (i < length l)%nat -> Rabs ((nth i l 0 - nth i m 0) - (nth i l' 0 - nth i m' 0)) <= e) ->
  Rabs (sqrt (rsum (vmap2 (fun a b => (a - b) ^ 2) l m)) - sqrt (rsum (vmap2 (fun a b => (a - b) ^ 2) l' m'))) <= INR (length l) * e.
Proof.
  intros L1 L2 L3 He H. rewrite !rsum_vmap2 by congruence. rewrite L2. set (n := length l) in *.
  set (x := fun i => nth i l 0 - nth i m 0). set (y := fun i => nth i l' 0 - nth i m' 0).
  assert (D : forall a b : nat -> R, (forall i, (i < n)%nat -> Rabs (a i - b i) <= e) ->
    sqrt (sumn n (fun i => a i ^ 2)) <= sqrt (sumn n (fun i => b i ^ 2)) + INR n * e).
  { intros a b Hab. pose proof (minkowski n b (fun i => a i - b i)) as M. cbn beta in M.
    rewrite (sumn_ext n (fun i => (b i + (a i - b i)) ^ 2) (fun i => a i ^ 2)) in M by (intros; f_equal; ring).
    assert (Q : sqrt (sumn n (fun i => (a i - b i) ^ 2)) <= INR n * e); [|lra].
    assert (In0 : 0 <= INR n) by apply pos_INR.
    rewrite <- (sqrt_square (INR n * e)) by (apply Rmult_le_pos; lra). apply sqrt_le_1_alt.
    apply Rle_trans with (INR n * e ^ 2).
    - rewrite <- sumn_const. apply sumn_le. intros i I. specialize (Hab i I). rewrite <- (pow2_abs (a i - b i)). apply pow_incr. split; [apply Rabs_pos|exact Hab].
    - destruct n as [|n']; [cbn; lra|]. assert (1 <= INR (S n')) by (rewrite S_INR; pose proof (pos_INR n'); lra).
      assert (0 <= e ^ 2) by apply pow2_ge_0. replace (INR (S n') * e * (INR (S n') * e)) with (INR (S n') * (INR (S n') * e ^ 2)) by ring.
      apply Rmult_le_compat_l; [lra|]. rewrite <- (Rmult_1_l (e ^ 2)) at 1. apply Rmult_le_compat_r; lra. }
  pose proof (D x y H) as D1. pose proof (D y x ltac:(intros i I; rewrite Rabs_minus_sym; apply H, I)) as D2.
  fold x y in D1, D2. change (fun i => x i ^ 2) with (fun i => (nth i l 0 - nth i m 0) ^ 2) in *. change (fun i => y i ^ 2) with (fun i => (nth i l' 0 - nth i m' 0) ^ 2) in *.
  apply Rabs_le. lra.
Qed.

Lemma hd_accuracy np_sum p q : adds_in_some_order np_sum -> p <> [] -> length p = length q -> (Z.of_nat (length p) <= 2 ^ 49)%Z ->
  Forall in_unit p -> Forall in_unit q ->
  finite (hd_float np_sum p q) /\ 0 <= val (hd_float np_sum p q) /\
  exists d, hdist (vec (map val p)) (vec (map val q)) = Val d /\ 0 <= d /\
    Rabs (val (hd_float np_sum p q) - d) <= INR (2 * length p + 7) * pow2 (-52) * d + INR (length p + 1) * pow2 (-52).
Proof.
  intros A E L N Up Uq. pose proof ulp1_bounds as (u0 & u1).
  set (sp := map fsqrt p). set (sq := map fsqrt q).
  assert (Usp : Forall in_unit sp) by (apply Forall_map; eapply Forall_impl; [|exact Up]; intros a U; apply sqrt_unit, U).
  assert (Usq : Forall in_unit sq) by (apply Forall_map; eapply Forall_impl; [|exact Uq]; intros a U; apply sqrt_unit, U).
  assert (Lsp : length sp = length p) by apply map_length. assert (Lsq : length sq = length q) by apply map_length.
  assert (Eh : hd_float np_sum p q = fsqrt (np_sum (fmap2 (fun a b => fsquare (fsub a b)) sp sq))).
  { unfold hd_float, sp, sq. f_equal. f_equal. rewrite <- (fmap2_map (fun a b => fsquare (fsub a b)) fsqrt). apply fmap2_ext. intros a b. apply fsquare_sub_comm. }
  destruct (norm_close np_sum _ _ (4 * ulp1) sp sq A square_term Usp Usq ltac:(congruence) ltac:(rewrite Lsp; exact N) ltac:(lra)) as (F & P & _ & C).
  rewrite <- Eh in F, P, C. split; [exact F|]. split; [exact P|].
  exists (sqrt (rsum (vmap2 (fun a b => (a - b) ^ 2) (map sqrt (map val p)) (map sqrt (map val q))))). split; [|split; [apply sqrt_pos|]].
  - rewrite hd_val; [|rewrite !map_length; exact L|apply map_val_nonempty, E| |].
    + f_equal. f_equal. rewrite rsum_vmap2 by (rewrite !map_length; exact L). unfold dsum. rewrite !map_length. apply sumn_ext. intros i I.
      rewrite (nth_indep (map sqrt (map val p)) 0 (sqrt 0)), (nth_indep (map sqrt (map val q)) 0 (sqrt 0)) by (rewrite !map_length; lia).
      rewrite !map_nth. ring.
    + apply Forall_map. eapply Forall_impl; [|exact Up]. intros a (_ & B). lra.
    + apply Forall_map. eapply Forall_impl; [|exact Uq]. intros a (_ & B). lra.
  - pose proof (norm_lipschitz ulp1 (map val sp) (map val sq) (map sqrt (map val p)) (map sqrt (map val q))) as NL.
    rewrite !map_length, Lsp, Lsq in NL. specialize (NL L eq_refl eq_refl ltac:(lra)).
    assert (HN : forall i, (i < length p)%nat -> Rabs (nth i (map val sp) 0 - nth i (map val sq) 0 - (nth i (map sqrt (map val p)) 0 - nth i (map sqrt (map val q)) 0)) <= ulp1).
    { intros i I. rewrite !nth_val. unfold sp, sq.
      rewrite (nth_indep (map sqrt (map val p)) 0 (sqrt 0)), (nth_indep (map sqrt (map val q)) 0 (sqrt 0)) by (rewrite !map_length; lia).
      rewrite (nth_indep (map fsqrt p) f0 (fsqrt f0)), (nth_indep (map fsqrt q) f0 (fsqrt f0)) by (rewrite !map_length; lia).
      rewrite !map_nth. rewrite !nth_val.
      destruct (sqrt_unit _ (Forall_nth_in _ p i f0 Up I)) as (_ & C1). destruct (sqrt_unit _ (Forall_nth_in _ q i f0 Uq ltac:(lia))) as (_ & C2).
      assert (ulp1 = 2 * pow2 (-54)) by (unfold ulp1; change (-53)%Z with (1 + -54)%Z; rewrite bpow_plus; reflexivity).
      apply Rabs_le_inv in C1, C2. apply Rabs_le. lra. }
    specialize (NL HN). clear HN. set (s := sqrt (rsum (vmap2 _ (map val sp) (map val sq)))) in *. set (d := sqrt (rsum (vmap2 _ (map sqrt _) _))) in *.
    rewrite Lsp in C. rewrite !plus_INR, mult_INR in *. change (INR 2) with 2 in *. change (INR 1) with 1. replace (INR 7) with 7 in * by (cbn; lra).
    rewrite ulp52 in *. set (k := INR (length p)) in *. assert (k1 : 1 <= k) by (change 1 with (INR 1); apply le_INR; destruct p; [congruence|cbn; lia]).
    assert (kb : k <= pow2 49). { unfold k. rewrite INR_IZR_INZ. change (pow2 49) with (IZR (2 ^ 49)). apply IZR_le, N. }
    assert (ku : k * ulp1 <= 1/16).
    { apply Rle_trans with (pow2 49 * ulp1); [apply Rmult_le_compat_r; lra|]. unfold ulp1. rewrite <- bpow_plus. cbn. lra. }
    assert (P5 : pow2 (-500) <= ulp1) by (apply bpow_le; lia). apply Rabs_le_inv in NL, C.
    assert (X : (2 * k + 7) * (2 * ulp1) * s <= (2 * k + 7) * (2 * ulp1) * (d + k * ulp1)) by (apply Rmult_le_compat_l; [apply Rmult_le_pos; lra|lra]).
    assert (Y : (2 * k + 7) * (2 * ulp1) * (k * ulp1) <= 1 * (k * ulp1)) by (apply Rmult_le_compat_r; [apply Rmult_le_pos; lra|lra]).
    apply Rabs_le. lra.
Qed.

(** ** Identity *)

Lemma l1_zero_iff np_sum p q : adds_in_some_order np_sum -> length p = length q -> (Z.of_nat (length p) <= 2 ^ 53)%Z ->
  Forall in_unit p -> Forall in_unit q -> (val (l1_float np_sum p q) = 0 <-> map val p = map val q).
Proof.
  intros A L N Up Uq.
  assert (U : Forall in_unit (fmap2 (fun a b => fabs (fsub a b)) p q)) by (apply (terms_close _ _ _ _ p q abs_term Up Uq L)).
  assert (Lg : length (fmap2 (fun a b => fabs (fsub a b)) p q) = length p) by (apply fmap2_length, L).
  split.
  - intros Z. assert (T : forall i, (i < length p)%nat -> val (nth i p f0) = val (nth i q f0)).
    { intros i I. assert (I' : In (nth i (fmap2 (fun a b => fabs (fsub a b)) p q) f0) (fmap2 (fun a b => fabs (fsub a b)) p q)) by (apply nth_In; lia).
      pose proof (summed_ge _ _ (A _) U ltac:(unfold small; lia) _ I') as G. rewrite Forall_forall in U. destruct (U _ I') as (_ & B & _).
      unfold l1_float in Z. rewrite Z in G. rewrite (fmap2_nth _ p q i f0 f0) in G, B by assumption.
      pose proof (Forall_nth_in _ p i f0 Up I) as Ua. pose proof (Forall_nth_in _ q i f0 Uq ltac:(lia)) as Ub.
      destruct (sub_unit _ _ Ua Ub) as (F & V). destruct (fabs_ok _ F) as (_ & V'). rewrite V' in G, B.
      assert (Z0 : val (fsub (nth i p f0) (nth i q f0)) = 0).
      { destruct (Req_dec (val (fsub (nth i p f0) (nth i q f0))) 0) as [E|E]; [exact E|]. apply Rabs_pos_lt in E. lra. }
      destruct (sub_error (nth i p f0) (nth i q f0)) as (d & Hd & Ed). rewrite V, Ed in Z0. pose proof ulp1_bounds as (u0 & u1). apply Rabs_le_inv in Hd.
      apply Rmult_integral in Z0. destruct Z0; lra. }
    apply nth_ext with 0 0; [rewrite !map_length; exact L|]. intros i I. rewrite map_length in I. rewrite !nth_val. apply T, I.
  - intros M. unfold l1_float.
    assert (T : Forall (fun x => x = f0) (fmap2 (fun a b => fabs (fsub a b)) p q)).
    { apply Forall_forall. intros x I. apply (In_nth _ _ f0) in I. destruct I as (i & I & <-). rewrite Lg in I. rewrite (fmap2_nth _ p q i f0 f0) by assumption.
      pose proof (Forall_nth_in _ p i f0 Up I) as Ua. pose proof (Forall_nth_in _ q i f0 Uq ltac:(lia)) as Ub.
      assert (V : val (nth i p f0) = val (nth i q f0)) by (rewrite <- !nth_val, M; reflexivity).
      destruct (sub_unit _ _ Ua Ub) as (F & W). destruct (fabs_ok _ F) as (F' & W'). destruct f0_ok as (F0 & V0).
      apply B2R_Bsign_inj; [exact F'|exact F0| |].
      - change (val (fabs (fsub (nth i p f0) (nth i q f0))) = val f0). rewrite W', W, V0, V. unfold Rminus. rewrite Rplus_opp_r, nearest_0. apply Rabs_R0.
      - unfold fabs. rewrite Bsign_Babs. reflexivity. }
    rewrite (summed_zeros _ _ (A _) T). apply f0_ok.
Qed.

Definition two_to (e : Z) : float := binary_normalize 53 1024 prec_pos prec_small mode_NE 1 e false.

Lemma unit_by_order x : is_finite x = true -> flt x f0 = false -> flt f1 x = false -> in_unit x.
Proof.
  intros F A B. destruct f0_ok as (F0 & V0), f1_ok as (F1 & V1). split; [exact F|]. apply flt_false in A, B; try assumption. lra.
Qed.

Ltac unit_now := apply unit_by_order; vm_compute; reflexivity.

(** Distances that are 0 although the vectors differ. *)
Lemma identity_refuted : exists p1 q1 p2 q2 p3 q3,
  Forall in_unit p1 /\ Forall in_unit q1 /\ map val p1 <> map val q1 /\ length p1 = 2%nat /\ length q1 = 2%nat /\ mae_float numpy_sum p1 q1 = f0 /\
  Forall in_unit p2 /\ Forall in_unit q2 /\ map val p2 <> map val q2 /\ length p2 = 2%nat /\ length q2 = 2%nat /\ mse_float numpy_sum p2 q2 = f0 /\ l2_float numpy_sum p2 q2 = f0 /\
  Forall in_unit p3 /\ Forall in_unit q3 /\ map val p3 <> map val q3 /\ length p3 = 2%nat /\ length q3 = 2%nat /\ hd_float numpy_sum p3 q3 = f0.
Proof.
  exists [two_to (-1074); f1], [f0; f1], [two_to (-600); f1], [f0; f1], [fsub f1 (two_to (-53)); f0], [fsub f1 (two_to (-52)); f0].
  assert (Ne : forall a b l m, is_finite a = true -> is_finite b = true -> flt b a = true -> map val (a :: l) <> map val (b :: m)).
  { intros a b l m Fa Fb H E. pose proof (flt_val b a Fb Fa H). cbn in E. injection E as E _. lra. }
  assert (U : forall a b, in_unit a -> in_unit b -> Forall in_unit [a; b]).
  { intros a b Ha Hb. apply Forall_cons; [exact Ha|apply Forall_cons; [exact Hb|constructor]]. }
  repeat split.
  all: try (apply U; unit_now). all: try (apply Ne; vm_compute; reflexivity). all: apply B2SF_inj; vm_compute; reflexivity.
Qed.

(** ** The triangle inequality *)

Lemma triangle_refuted : exists p q r, Forall in_unit p /\ Forall in_unit q /\ Forall in_unit r /\
  (exists a b, p = [a; b] /\ complementary a b) /\ (exists a b, q = [a; b] /\ complementary a b) /\ (exists a b, r = [a; b] /\ complementary a b) /\
  val (fadd (l1_float numpy_sum p q) (l1_float numpy_sum q r)) < val (l1_float numpy_sum p r).
Proof.
  exists [f0; f1], [ratio 1 10; ratio 9 10], [ratio 3 10; ratio 7 10].
  assert (U : forall a b, in_unit a -> in_unit b -> Forall in_unit [a; b]).
  { intros a b Ha Hb. apply Forall_cons; [exact Ha|apply Forall_cons; [exact Hb|constructor]]. }
  assert (C : forall a b, in_unit a -> in_unit b -> B2SF (fadd a b) = B2SF f1 -> exists x y, [a; b] = [x; y] /\ complementary x y).
  { intros a b Ha Hb H. exists a, b. split; [reflexivity|]. split; [exact Ha|]. split; [exact Hb|]. rewrite (B2SF_inj _ _ (fadd a b) f1 H). apply f1_ok. }
  repeat split. all: try (apply U; unit_now). 1-3: apply C; try unit_now; vm_compute; reflexivity.
  apply flt_val; vm_compute; reflexivity.
Qed.
