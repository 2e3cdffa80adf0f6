(** * Earth mover's distances in double precision: symmetry, zero, bounds. *)

From Coq Require Import Reals ZArith List Permutation Lia Lra Bool Psatz.
From Flocq Require Import Core BinarySingleNaN Relative Plus_error.
From Verif Require Import Num Spec L_Num M_Baselines M_Metrics L_Metrics M_Float M_Float2 M_Float3 M_Float4 M_Float6 Spec_Float L_Float L_Float2 L_Float3 L_Float4 L_Float5 L_Float6 L_Float7 L_Float8 L_Float9 L_Float10 L_Float11 L_Float12 L_Float13 L_Float14 L_Float15 L_Float16.
Import ListNotations.
Open Scope R_scope.

Local Notation pow2 := (bpow radix2).

(** ** Symmetry. *)

(** [y] is [x] with the sign changed, except that the sign of zero does not matter. *)
Definition mirror (x y : float) : Prop :=
  (finite x /\ finite y /\ val y = - val x) \/ (exists s, x = B754_infinity s /\ y = B754_infinity (negb s)) \/ (is_nan x = true /\ is_nan y = true).

Lemma mirror_fabs x y : mirror x y -> fabs x = fabs y.
Proof.
  intros [(Fx & Fy & V)|[(s & -> & ->)|(Nx & Ny)]].
  - apply B2R_Bsign_inj.
    + unfold fabs. rewrite is_finite_Babs. exact Fx.
    + unfold fabs. rewrite is_finite_Babs. exact Fy.
    + unfold fabs. rewrite !B2R_Babs. unfold val in V. rewrite V, Rabs_Ropp. reflexivity.
    + unfold fabs. rewrite !Bsign_Babs; reflexivity.
  - reflexivity.
  - destruct x; try discriminate Nx. destruct y; try discriminate Ny. reflexivity.
Qed.

Lemma mirror_sub a b : mirror (fsub a b) (fsub b a).
Proof.
  destruct (is_finite a) eqn:Fa, (is_finite b) eqn:Fb.
  - pose proof (Bminus_correct 53 1024 prec_pos prec_small mode_NE a b Fa Fb) as C1.
    pose proof (Bminus_correct 53 1024 prec_pos prec_small mode_NE b a Fb Fa) as C2.
    assert (Op : round radix2 (SpecFloat.fexp 53 1024) (round_mode mode_NE) (B2R b - B2R a) = - round radix2 (SpecFloat.fexp 53 1024) (round_mode mode_NE) (B2R a - B2R b)).
    { replace (B2R b - B2R a) with (- (B2R a - B2R b)) by ring. apply round_NE_opp. }
    rewrite (Rlt_bool_ext (Rabs (round radix2 _ _ (B2R b - B2R a))) (Rabs (round radix2 (SpecFloat.fexp 53 1024) (round_mode mode_NE) (B2R a - B2R b)))) in C2 by (rewrite Op; apply Rabs_Ropp).
    destruct (Rlt_bool _ _).
    + destruct C1 as (V1 & F1 & _), C2 as (V2 & F2 & _). left. split; [exact F1|]. split; [exact F2|]. unfold val, fsub. rewrite V1, V2. exact Op.
    + destruct C1 as (V1 & S1), C2 as (V2 & _). right; left. exists (Bsign a).
      assert (S2 : Bsign b = negb (Bsign a)) by (rewrite S1; now rewrite negb_involutive).
      rewrite S2 in V2. unfold binary_overflow in V1, V2. cbn [overflow_to_inf] in V1, V2.
      split; apply B2SF_inj; [exact V1|exact V2].
  - destruct a as [s|s| |s m e H]; try discriminate Fa; destruct b as [s'|s'| |s' m' e' H']; try discriminate Fb;
      try (right; right; split; reflexivity); right; left; exists (negb s'); (split; [reflexivity|]); rewrite negb_involutive; reflexivity.
  - destruct a as [s|s| |s m e H]; try discriminate Fa; destruct b as [s'|s'| |s' m' e' H']; try discriminate Fb;
      try (right; right; split; reflexivity); right; left; exists s; split; reflexivity.
  - destruct a as [s|s| |s m e H]; try discriminate Fa; destruct b as [s'|s'| |s' m' e' H']; try discriminate Fb;
      try (right; right; split; reflexivity). destruct s, s'; try (right; right; split; reflexivity); right; left; [exists true|exists false]; split; reflexivity.
Qed.

Lemma sign_of_val x : finite x -> val x <> 0 -> Bsign x = Rlt_bool (val x) 0.
Proof.
  intros F N. destruct x as [s|s| |s m e H]; try discriminate F; [cbn in N; lra|]. unfold val. cbn [B2R Bsign].
  destruct s; cbn; symmetry.
  - apply Rlt_bool_true. apply F2R_lt_0. reflexivity.
  - apply Rlt_bool_false. apply Rlt_le, F2R_gt_0. reflexivity.
Qed.

Lemma Rlt_bool_opp x : x <> 0 -> Rlt_bool (- x) 0 = negb (Rlt_bool x 0).
Proof. intros N. destruct (Rlt_le_dec x 0); [rewrite Rlt_bool_false, Rlt_bool_true by lra|rewrite Rlt_bool_true, Rlt_bool_false by lra]; reflexivity. Qed.

Lemma mirror_add x y x' y' : mirror x x' -> mirror y y' -> mirror (fadd x y) (fadd x' y').
Proof.
  intros [(Fx & Fx' & Vx)|[(s & -> & ->)|(Nx & Nx')]] My.
  - destruct My as [(Fy & Fy' & Vy)|[(s & -> & ->)|(Ny & Ny')]].
    + pose proof (Bplus_correct 53 1024 prec_pos prec_small mode_NE x y Fx Fy) as C1.
      pose proof (Bplus_correct 53 1024 prec_pos prec_small mode_NE x' y' Fx' Fy') as C2.
      assert (Op : round radix2 (SpecFloat.fexp 53 1024) (round_mode mode_NE) (B2R x' + B2R y') = - round radix2 (SpecFloat.fexp 53 1024) (round_mode mode_NE) (B2R x + B2R y)).
      { unfold val in Vx, Vy. rewrite Vx, Vy. replace (- B2R x + - B2R y) with (- (B2R x + B2R y)) by ring. apply round_NE_opp. }
      rewrite (Rlt_bool_ext (Rabs (round radix2 _ _ (B2R x' + B2R y'))) (Rabs (round radix2 (SpecFloat.fexp 53 1024) (round_mode mode_NE) (B2R x + B2R y)))) in C2 by (rewrite Op; apply Rabs_Ropp).
      destruct (Rlt_bool _ _) eqn:E.
      * destruct C1 as (V1 & F1 & _), C2 as (V2 & F2 & _). left. split; [exact F1|]. split; [exact F2|]. unfold val, fadd. rewrite V1, V2. exact Op.
      * destruct C1 as (V1 & S1), C2 as (V2 & _). right; left. exists (Bsign x).
        assert (N : val x <> 0).
        { intros Z. unfold val in Z. rewrite Z, Rplus_0_l in E.
          rewrite round_generic in E by (try apply valid_rnd_round_mode; apply generic_format_B2R).
          rewrite Rlt_bool_true in E by apply abs_B2R_lt_emax. discriminate E. }
        assert (S2 : Bsign x' = negb (Bsign x)).
        { rewrite (sign_of_val x Fx N), (sign_of_val x' Fx' ltac:(lra)), Vx. apply Rlt_bool_opp, N. }
        rewrite S2 in V2. unfold binary_overflow in V1, V2. cbn [overflow_to_inf] in V1, V2.
        split; apply B2SF_inj; [exact V1|exact V2].
    + right; left. exists s. destruct x as [?|?| |? ? ? ?]; try discriminate Fx; destruct x' as [?|?| |? ? ? ?]; try discriminate Fx'; split; reflexivity.
    + right; right. destruct y; try discriminate Ny. destruct y'; try discriminate Ny'.
      destruct x as [?|?| |? ? ? ?]; try discriminate Fx; destruct x' as [?|?| |? ? ? ?]; try discriminate Fx'; split; reflexivity.
  - destruct My as [(Fy & Fy' & Vy)|[(s' & -> & ->)|(Ny & Ny')]].
    + right; left. exists s. destruct y as [?|?| |? ? ? ?]; try discriminate Fy; destruct y' as [?|?| |? ? ? ?]; try discriminate Fy'; split; reflexivity.
    + destruct s, s'; try (right; right; split; reflexivity); right; left; [exists true|exists false]; split; reflexivity.
    + right; right. destruct y; try discriminate Ny. destruct y'; try discriminate Ny'. split; reflexivity.
  - right; right. destruct x; try discriminate Nx. destruct x'; try discriminate Nx'. split; reflexivity.
Qed.

Lemma mirror_cumsum_from l m : Forall2 mirror l m -> forall x y, mirror x y -> Forall2 mirror (fcumsum_from x l) (fcumsum_from y m).
Proof. induction 1 as [|a b l m M F IH]; intros x y H; cbn; constructor; [apply mirror_add; assumption|]. apply IH. apply mirror_add; assumption. Qed.

Lemma mirror_cumsum l m : Forall2 mirror l m -> Forall2 mirror (fcumsum l) (fcumsum m).
Proof. intros [|a b l' m' M F]; cbn; constructor; [assumption|]. apply mirror_cumsum_from; assumption. Qed.

Lemma mirror_diff p q : Forall2 mirror (fmap2 fsub p q) (fmap2 fsub q p).
Proof. revert q. induction p as [|a p IH]; intros [|b q]; cbn; constructor; [apply mirror_sub|apply IH]. Qed.

Lemma emd_float_symmetric np_sum p q : emd_float np_sum p q = emd_float np_sum q p.
Proof.
  unfold emd_float. f_equal. pose proof (mirror_cumsum _ _ (mirror_diff p q)) as H.
  induction H as [|x y l m M F IH]; cbn; [reflexivity|]. rewrite (mirror_fabs _ _ M), IH. reflexivity.
Qed.

Lemma emd_pair_float_symmetric a b : length a = length b -> emd_pair_float a b = emd_pair_float b a.
Proof.
  intros L. unfold emd_pair_float. rewrite <- L. rewrite (fabs_sub_comm (nth 0 (fcumsum a) f0)).
  generalize (fabs (fsub (nth 0 (fcumsum b) f0) (nth 0 (fcumsum a) f0))). generalize (seq 1 (length a - 2)).
  induction l as [|i l IH]; intros d; cbn; [reflexivity|]. rewrite (fabs_sub_comm (nth i (fcumsum a) f0)). apply IH.
Qed.

(** ** Sums of partial sums are bounded. *)

Definition at_most (B : R) (x : float) : Prop := finite x /\ Rabs (val x) <= B.

Lemma add_at_most n x y : (Z.of_nat n < 2 ^ 53)%Z -> at_most (INR n) x -> at_most 1 y -> at_most (INR (S n)) (fadd x y) /\ val (fadd x y) = nearest (val x + val y).
Proof.
  intros N (Fx & Bx) (Fy & By). apply Rabs_le_inv in Bx, By.
  assert (I : INR (S n) = IZR (Z.of_nat (S n))) by apply INR_IZR_INZ. rewrite S_INR in I.
  assert (L : IZR (Z.of_nat (S n)) <= IZR (2 ^ 60)) by (apply IZR_le; lia).
  destruct (fadd_ok x y Fx Fy) as (F & V); [apply big, Rabs_le; lra|].
  split; [|exact V]. split; [exact F|]. rewrite V. rewrite S_INR, I. apply Rabs_le. split.
  - apply nearest_ge_format; [rewrite <- opp_IZR; apply format_Z; lia|lra].
  - apply nearest_le_format; [apply format_Z; lia|lra].
Qed.

Lemma cumsum_from_at_most l : Forall (at_most 1) l -> forall n x, at_most (INR n) x -> (Z.of_nat (n + length l) <= 2 ^ 53)%Z ->
  Forall (at_most (INR (n + length l))) (fcumsum_from x l).
Proof.
  induction 1 as [|y l B F IH]; intros n x H N; [constructor|]. cbn [length] in N. cbn [fcumsum_from length].
  destruct (add_at_most n x y ltac:(lia) H B) as (H' & _). replace (n + S (length l))%nat with (S n + length l)%nat by lia.
  constructor; [|apply IH; [exact H'|lia]]. destruct H' as (F' & B'). split; [exact F'|]. apply Rle_trans with (1 := B'). apply le_INR. lia.
Qed.

Lemma cumsum_at_most l : Forall (at_most 1) l -> (Z.of_nat (length l) <= 2 ^ 53)%Z -> Forall (at_most (INR (length l))) (fcumsum l).
Proof.
  intros [|y l' B F] N; [constructor|]. cbn [fcumsum length] in *. change (S (length l')) with (1 + length l')%nat in *. constructor.
  - destruct B as (F' & B'). split; [exact F'|]. apply Rle_trans with (1 := B'). change 1 with (INR 1). apply le_INR. lia.
  - apply cumsum_from_at_most; auto.
Qed.

Lemma diff_at_most p q : Forall in_unit p -> Forall in_unit q -> Forall (at_most 1) (fmap2 fsub p q).
Proof.
  intros Up. revert q. induction Up as [|a p Ua Up IH]; intros [|b q] Uq; cbn; constructor; inversion_clear Uq as [|? ? Ub Uq'].
  - destruct (sub_unit a b Ua Ub) as (F & V). destruct Ua as (Fa & Ba), Ub as (Fb & Bb). split; [exact F|]. rewrite V.
    apply Rabs_le. split; [apply nearest_ge_format; [apply (format_Z (-1)); lia|lra]|apply nearest_le_format; [apply format_1|lra]].
  - apply IH. assumption.
Qed.

Lemma fcumsum_from_length l : forall x, length (fcumsum_from x l) = length l.
Proof. induction l as [|y l IH]; intros x; cbn; [reflexivity|]. now rewrite IH. Qed.

Lemma fcumsum_length l : length (fcumsum l) = length l.
Proof. destruct l as [|x l]; cbn; [reflexivity|]. now rewrite fcumsum_from_length. Qed.

Lemma INR_le_pow53 n : (Z.of_nat n <= 2 ^ 53)%Z -> INR n <= pow2 53.
Proof. intros H. rewrite INR_IZR_INZ. change (pow2 53) with (IZR (2 ^ 53)). apply IZR_le, H. Qed.

Lemma abs_bounded e l B : B <= pow2 e -> Forall (at_most B) l -> Forall (bounded e) (map fabs l).
Proof.
  intros HB. induction 1 as [|x l (F & H) _ IH]; cbn; constructor; [|exact IH].
  destruct (fabs_ok x F) as (F' & V). split; [exact F'|]. rewrite V. split; [apply Rabs_pos|lra].
Qed.

Lemma emd_terms p q : length p = length q -> (Z.of_nat (length p) <= 2 ^ 53)%Z -> Forall in_unit p -> Forall in_unit q ->
  let l := map fabs (fcumsum (fmap2 fsub p q)) in Forall (bounded 53) l /\ length l = length p.
Proof.
  intros L N Up Uq l. assert (Ll : length (fmap2 fsub p q) = length p) by (apply fmap2_length, L).
  split; [|unfold l; rewrite map_length, fcumsum_length; exact Ll].
  apply (abs_bounded 53 _ (INR (length p))); [apply INR_le_pow53, N|]. rewrite <- Ll. apply cumsum_at_most; [apply diff_at_most; assumption|rewrite Ll; exact N].
Qed.

Lemma emd_float_nonneg np_sum p q : adds_in_some_order np_sum -> length p = length q -> (Z.of_nat (length p) <= 2 ^ 53)%Z ->
  Forall in_unit p -> Forall in_unit q -> finite (emd_float np_sum p q) /\ 0 <= val (emd_float np_sum p q).
Proof.
  intros A L N Up Uq. destruct (emd_terms p q L N Up Uq) as (B & Ll).
  destruct (summed_range_gen 53 ltac:(lia) ltac:(lia) _ _ (A (map fabs (fcumsum (fmap2 fsub p q)))) B ltac:(unfold small; lia)) as (F & V).
  split; [exact F|apply V].
Qed.

(** ** Zero only for equal vectors. *)

Lemma cumsum_from_zero l : Forall (at_most 1) l -> forall n x, at_most (INR n) x -> (Z.of_nat (n + length l) <= 2 ^ 53)%Z -> val x = 0 ->
  (Forall (fun y => val y = 0) (fcumsum_from x l) <-> Forall (fun y => val y = 0) l).
Proof.
  induction 1 as [|y l B F IH]; intros n x H N Z; [split; constructor|]. cbn [length] in N. cbn [fcumsum_from].
  destruct (add_at_most n x y ltac:(lia) H B) as (H' & V). rewrite Z, Rplus_0_l, nearest_id in V by apply format_val.
  specialize (IH (S n) _ H' ltac:(lia)). split; intros G; inversion_clear G as [|? ? G1 G2]; constructor.
  - lra.
  - apply IH; [lra|exact G2].
  - lra.
  - apply IH; [lra|exact G2].
Qed.

Lemma cumsum_zero l : Forall (at_most 1) l -> (Z.of_nat (length l) <= 2 ^ 53)%Z ->
  (Forall (fun y => val y = 0) (fcumsum l) <-> Forall (fun y => val y = 0) l).
Proof.
  intros [|y l' B F] N; [split; constructor|]. cbn [fcumsum]. cbn [length] in N.
  split; intros G; inversion_clear G as [|? ? G1 G2]; constructor; try assumption; apply (cumsum_from_zero l' F 1 y); auto; cbn; lia.
Qed.

Lemma diff_zero p q : length p = length q -> Forall in_unit p -> Forall in_unit q ->
  (Forall (fun y => val y = 0) (fmap2 fsub p q) <-> map val p = map val q).
Proof.
  intros L Up. revert q L. induction Up as [|a p Ua Up IH]; intros [|b q] L Uq; try discriminate L; cbn; [split; [reflexivity|constructor]|].
  inversion_clear Uq as [|? ? Ub Uq']. destruct (sub_unit a b Ua Ub) as (F & V). specialize (IH q ltac:(cbn in L; lia) Uq').
  assert (E : val (fsub a b) = 0 <-> val a = val b).
  { rewrite V. destruct (sub_error a b) as (d & Hd & Ed). pose proof ulp1_bounds. apply Rabs_le_inv in Hd. split.
    - rewrite Ed. intros Z. apply Rmult_integral in Z. destruct Z; lra.
    - intros ->. unfold Rminus. rewrite Rplus_opp_r. apply nearest_0. }
  split.
  - intros G. inversion_clear G as [|? ? G1 G2]. f_equal; [now apply E|now apply IH].
  - intros [= G1 G2]. constructor; [now apply E|now apply IH].
Qed.

Lemma emd_float_zero np_sum p q : adds_in_some_order np_sum -> length p = length q -> (Z.of_nat (length p) <= 2 ^ 53)%Z ->
  Forall in_unit p -> Forall in_unit q -> (val (emd_float np_sum p q) = 0 <-> map val p = map val q).
Proof.
  intros A L N Up Uq. destruct (emd_terms p q L N Up Uq) as (B & Ll).
  assert (Ld : length (fmap2 fsub p q) = length p) by (apply fmap2_length, L).
  pose proof (diff_at_most p q Up Uq) as D.
  rewrite <- (diff_zero p q L Up Uq), <- (cumsum_zero _ D) by lia.
  pose proof (cumsum_at_most _ D ltac:(lia)) as Ca. set (c := fcumsum (fmap2 fsub p q)) in *.
  split.
  - intros Z. apply Forall_forall. intros x I. rewrite Forall_forall in Ca. destruct (Ca x I) as (Fx & _). destruct (fabs_ok x Fx) as (_ & V).
    pose proof (summed_ge_gen 53 ltac:(lia) ltac:(lia) _ _ (A (map fabs c)) B ltac:(unfold small; lia) (fabs x) ltac:(now apply in_map)) as G.
    unfold emd_float in Z. fold c in Z. rewrite Z, V in G. destruct (Req_dec (val x) 0) as [E|E]; [exact E|]. apply Rabs_pos_lt in E. lra.
  - intros Z. unfold emd_float. fold c. assert (T : Forall (fun x => x = f0) (map fabs c)).
    { apply Forall_forall. intros y I. apply in_map_iff in I. destruct I as (x & <- & I). rewrite Forall_forall in Z, Ca. destruct (Ca x I) as (Fx & _).
      destruct (fabs_ok x Fx) as (F' & V). destruct f0_ok as (F0 & V0). apply B2R_Bsign_inj; [exact F'|exact F0| |].
      - change (val (fabs x) = val f0). rewrite V, V0, (Z x I). apply Rabs_R0.
      - unfold fabs. rewrite Bsign_Babs. reflexivity. }
    rewrite (summed_zeros _ _ (A _) T). apply f0_ok.
Qed.

Lemma nonneg_zero_f0 np_sum p : adds_in_some_order np_sum -> (Z.of_nat (length p) <= 2 ^ 53)%Z -> Forall in_unit p -> emd_float np_sum p p = f0.
Proof.
  intros A N U. unfold emd_float. apply (summed_zeros _ _ (A _)).
  assert (D : Forall (fun x => x = f0) (fmap2 fsub p p)).
  { apply fmap2_self. intros a I. rewrite Forall_forall in U. apply fsub_self, (U a I). }
  assert (C : forall l, Forall (fun x => x = f0) l -> Forall (fun x => x = f0) (fcumsum_from f0 l)).
  { induction 1 as [|x l -> F IH]; cbn [fcumsum_from]; [constructor|]. rewrite fadd_f0. constructor; [reflexivity|exact IH]. }
  destruct D as [|x l -> F]; cbn [fcumsum map]; [constructor|]. constructor; [reflexivity|].
  specialize (C l F). induction C as [|y m -> C IH]; cbn [map]; constructor; [reflexivity|exact IH].
Qed.
