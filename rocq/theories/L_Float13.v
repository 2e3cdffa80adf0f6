(** * Distances between prevalences in double precision. *)

From Coq Require Import Reals ZArith List Permutation Lia Lra Bool Psatz.
From Flocq Require Import Core BinarySingleNaN Relative Plus_error.
From Verif Require Import Num Spec L_Num M_Baselines M_Metrics L_Metrics M_Float M_Float2 M_Float3 M_Float4 Spec_Float L_Float L_Float2 L_Float3 L_Float4 L_Float5 L_Float6 L_Float7 L_Float8 L_Float9 L_Float10 L_Float11.
Import ListNotations.
Open Scope R_scope.

Local Notation pow2 := (bpow radix2).

(** ** Symmetry, for all doubles, infinities and NaN included *)

Lemma fsquare_abs x : fsquare x = fsquare (fabs x).
Proof.
  unfold fsquare. destruct x as [s|s| |s m e H]; try (destruct s; reflexivity); [reflexivity|]. destruct s; [|reflexivity].
  apply B2SF_inj. unfold fmul, fabs. cbn [Babs Bmult]. rewrite !B2SF_SF2B. reflexivity.
Qed.

Lemma Rlt_bool_ext a b c : a = b -> Rlt_bool a c = Rlt_bool b c.
Proof. intros ->. reflexivity. Qed.

Lemma Babs_infinity (x : float) s : B2SF x = SpecFloat.S754_infinity s -> fabs x = B754_infinity false.
Proof. destruct x; cbn; intros H; try discriminate H. reflexivity. Qed.

Lemma fabs_sub_comm a b : fabs (fsub a b) = fabs (fsub b a).
Proof.
  destruct (is_finite a) eqn:Fa, (is_finite b) eqn:Fb.
  - pose proof (Bminus_correct 53 1024 prec_pos prec_small mode_NE a b Fa Fb) as C1.
    pose proof (Bminus_correct 53 1024 prec_pos prec_small mode_NE b a Fb Fa) as C2.
    assert (Op : round radix2 (SpecFloat.fexp 53 1024) (round_mode mode_NE) (B2R b - B2R a) = - round radix2 (SpecFloat.fexp 53 1024) (round_mode mode_NE) (B2R a - B2R b)).
    { replace (B2R b - B2R a) with (- (B2R a - B2R b)) by ring. apply round_NE_opp. }
    rewrite (Rlt_bool_ext (Rabs (round radix2 _ _ (B2R b - B2R a))) (Rabs (round radix2 (SpecFloat.fexp 53 1024) (round_mode mode_NE) (B2R a - B2R b)))) in C2 by (rewrite Op; apply Rabs_Ropp).
    destruct (Rlt_bool _ _).
    + destruct C1 as (V1 & F1 & _), C2 as (V2 & F2 & _). apply B2R_Bsign_inj.
      * unfold fabs, fsub. rewrite is_finite_Babs. exact F1.
      * unfold fabs, fsub. rewrite is_finite_Babs. exact F2.
      * unfold fabs, fsub. rewrite !B2R_Babs, V1, V2, Op. symmetry. apply Rabs_Ropp.
      * unfold fabs. rewrite (Bsign_Babs _ _ (fsub a b)), (Bsign_Babs _ _ (fsub b a)); reflexivity.
    + destruct C1 as (V1 & _), C2 as (V2 & _). unfold binary_overflow in V1, V2. cbn [overflow_to_inf] in V1, V2.
      rewrite (Babs_infinity (fsub a b) _ V1), (Babs_infinity (fsub b a) _ V2). reflexivity.
  - destruct a as [s|s| |s m e H]; try discriminate Fa; destruct b as [s'|s'| |s' m' e' H']; try discriminate Fb; reflexivity.
  - destruct a as [s|s| |s m e H]; try discriminate Fa; destruct b as [s'|s'| |s' m' e' H']; try discriminate Fb; reflexivity.
  - destruct a as [s|s| |s m e H]; try discriminate Fa; destruct b as [s'|s'| |s' m' e' H']; try discriminate Fb; try reflexivity.
    destruct s, s'; reflexivity.
Qed.

Lemma fsquare_sub_comm a b : fsquare (fsub a b) = fsquare (fsub b a).
Proof. rewrite fsquare_abs, fabs_sub_comm, <- fsquare_abs. reflexivity. Qed.

Lemma Rcompare_ext a b c : a = b -> Rcompare a c = Rcompare b c.
Proof. intros ->. reflexivity. Qed.

Lemma fadd_comm a b : fadd a b = fadd b a.
Proof.
  destruct (is_finite a) eqn:Fa, (is_finite b) eqn:Fb.
  - pose proof (Bplus_correct 53 1024 prec_pos prec_small mode_NE a b Fa Fb) as C1.
    pose proof (Bplus_correct 53 1024 prec_pos prec_small mode_NE b a Fb Fa) as C2.
    rewrite (Rplus_comm (B2R b) (B2R a)) in C2. destruct (Rlt_bool _ _).
    + destruct C1 as (V1 & F1 & S1), C2 as (V2 & F2 & S2). apply B2R_Bsign_inj; try assumption.
      * unfold fadd. rewrite V1, V2. reflexivity.
      * unfold fadd. rewrite S1, S2. rewrite (andb_comm (Bsign b)). reflexivity.
    + destruct C1 as (V1 & S1), C2 as (V2 & S2). apply B2SF_inj. unfold fadd. rewrite V1, V2, S1. reflexivity.
  - destruct a as [s|s| |s m e H]; try discriminate Fa; destruct b as [s'|s'| |s' m' e' H']; try discriminate Fb; reflexivity.
  - destruct a as [s|s| |s m e H]; try discriminate Fa; destruct b as [s'|s'| |s' m' e' H']; try discriminate Fb; reflexivity.
  - destruct a as [s|s| |s m e H]; try discriminate Fa; destruct b as [s'|s'| |s' m' e' H']; try discriminate Fb; try reflexivity.
    destruct s, s'; reflexivity.
Qed.

Lemma fmap2_swap f g l m : (forall a b, f a b = g b a) -> fmap2 f l m = fmap2 g m l.
Proof. intros H. revert m. induction l as [|x l IH]; intros [|y m]; try reflexivity. cbn. rewrite H, IH. reflexivity. Qed.

Lemma distances_symmetric np_sum epsilon p q :
  l1_float np_sum p q = l1_float np_sum q p /\ mae_float np_sum p q = mae_float np_sum q p /\
  mse_float np_sum p q = mse_float np_sum q p /\ l2_float np_sum p q = l2_float np_sum q p /\
  hd_float np_sum p q = hd_float np_sum q p /\ bray_curtis_float np_sum p q = bray_curtis_float np_sum q p /\
  probsymmetric_float np_sum epsilon p q = probsymmetric_float np_sum epsilon q p.
Proof.
  unfold l1_float, mae_float, mse_float, l2_float, hd_float, bray_curtis_float, probsymmetric_float.
  rewrite (fmap2_swap (fun a b => fabs (fsub a b)) (fun a b => fabs (fsub a b)) p q) by (intros; apply fabs_sub_comm).
  rewrite (fmap2_swap (fun a b => fabs (fsub b a)) (fun a b => fabs (fsub b a)) p q) by (intros; apply fabs_sub_comm).
  rewrite (fmap2_swap (fun a b => fsquare (fsub a b)) (fun a b => fsquare (fsub a b)) p q) by (intros; apply fsquare_sub_comm).
  rewrite (fmap2_swap (fun a b => fsquare (fsub b a)) (fun a b => fsquare (fsub b a)) p q) by (intros; apply fsquare_sub_comm).
  rewrite (fmap2_swap (fun a b => fsquare (fsub (fsqrt b) (fsqrt a))) (fun a b => fsquare (fsub (fsqrt b) (fsqrt a))) p q) by (intros; apply fsquare_sub_comm).
  rewrite (fmap2_swap fadd fadd p q) by (intros; apply fadd_comm).
  rewrite (fmap2_swap (fun a b => fdiv (fsquare (fsub a b)) (fadd (fadd b a) epsilon)) (fun a b => fdiv (fsquare (fsub a b)) (fadd (fadd b a) epsilon)) p q)
    by (intros a b; rewrite fsquare_sub_comm, (fadd_comm a b); reflexivity).
  repeat split; reflexivity.
Qed.

(** ** The distance of a vector to itself *)

Lemma fsub_self a : finite a -> fsub a a = f0.
Proof.
  intros F. pose proof (Bminus_correct 53 1024 prec_pos prec_small mode_NE a a F F) as C.
  replace (B2R a - B2R a) with 0 in C by ring. rewrite round_0 in C by (apply valid_rnd_round_mode). rewrite Rabs_R0, Rlt_bool_true in C by apply bpow_gt_0.
  destruct C as (V & Fi & S). destruct f0_ok as (F0 & V0). apply B2R_Bsign_inj; [exact Fi|exact F0| |].
  - unfold fsub. rewrite V. symmetry. exact V0.
  - unfold fsub. rewrite S. rewrite Rcompare_Eq by reflexivity. rewrite andb_negb_r. reflexivity.
Qed.

Lemma fadd_f0 : fadd f0 f0 = f0. Proof. reflexivity. Qed.

Lemma summed_zeros l s : summed l s -> Forall (fun x => x = f0) l -> s = f0.
Proof.
  induction 1 as [|x|l1 l2 l x y S1 IH1 S2 IH2 P]; intros H.
  - reflexivity.
  - inversion H. assumption.
  - apply (Permutation_Forall P) in H. apply Forall_app in H. destruct H as (H1 & H2). rewrite IH1, IH2 by assumption. apply fadd_f0.
Qed.

Lemma fmap2_self f l : (forall a, In a l -> f a a = f0) -> Forall (fun x => x = f0) (fmap2 f l l).
Proof. induction l as [|x l IH]; intros H; [constructor|]. cbn. constructor; [apply H; left; reflexivity|apply IH; intros a I; apply H; right; exact I]. Qed.

Lemma fdiv_f0 n : (0 < n)%nat -> small n -> fdiv f0 (of_nat n) = f0.
Proof.
  intros P N. destruct (of_nat_ok n N) as (F & V). assert (Pn : 0 < INR n) by (apply lt_0_INR, P).
  unfold val in V. destruct (of_nat n) as [s|s| |s m e H]; try discriminate F; [cbn in V; lra|].
  destruct s; [|reflexivity]. exfalso. cbn in V. assert (F2R (Float radix2 (Z.neg m) e) < 0) by (apply F2R_lt_0; reflexivity).
  unfold cond_Zopp in V. cbn in V. lra.
Qed.

Lemma finite_sqrt a : in_unit a -> finite (fsqrt a).
Proof.
  intros (F & B). destruct (Bsqrt_correct 53 1024 prec_pos prec_small mode_NE a) as (_ & Fi & _). unfold finite, fsqrt. rewrite Fi.
  destruct a as [s|s| |s m e H]; try discriminate F; [reflexivity|]. destruct s; [|reflexivity]. exfalso.
  assert (F2R (Float radix2 (Z.neg m) e) < 0) by (apply F2R_lt_0; reflexivity).
  destruct B as (B & _). change (0 <= F2R (Float radix2 (Z.neg m) e)) in B. lra.
Qed.

Lemma distances_self np_sum p : adds_in_some_order np_sum -> p <> [] -> (Z.of_nat (length p) <= 2 ^ 53)%Z -> Forall in_unit p ->
  l1_float np_sum p p = f0 /\ mae_float np_sum p p = f0 /\ mse_float np_sum p p = f0 /\ l2_float np_sum p p = f0 /\ hd_float np_sum p p = f0.
Proof.
  intros A E N U. assert (Fin : forall a, In a p -> finite a) by (intros a I; rewrite Forall_forall in U; apply (U a I)).
  assert (Z1 : forall f, (forall a, In a p -> f a a = f0) -> np_sum (fmap2 f p p) = f0).
  { intros f H. apply (summed_zeros _ _ (A _)). apply fmap2_self, H. }
  assert (M : forall f, (forall a, In a p -> f a a = f0) -> fmean np_sum (fmap2 f p p) = f0).
  { intros f H. unfold fmean. rewrite (Z1 f H), fmap2_length by reflexivity. apply fdiv_f0; [destruct p; [congruence|cbn; lia]|exact N]. }
  unfold l1_float, mae_float, mse_float, l2_float, hd_float. repeat split.
  - apply Z1. intros a I. rewrite fsub_self by (apply Fin, I). reflexivity.
  - apply M. intros a I. rewrite fsub_self by (apply Fin, I). reflexivity.
  - apply M. intros a I. rewrite fsub_self by (apply Fin, I). reflexivity.
  - rewrite Z1; [reflexivity|]. intros a I. rewrite fsub_self by (apply Fin, I). reflexivity.
  - rewrite Z1; [reflexivity|]. intros a I. rewrite fsub_self; [reflexivity|]. apply finite_sqrt. rewrite Forall_forall in U. apply U, I.
Qed.
