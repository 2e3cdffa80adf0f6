(** * search.py in double precision: the result of golden section search. *)

From Coq Require Import Reals ZArith List Permutation Lia Lra Bool Psatz.
From Flocq Require Import Core BinarySingleNaN Relative Plus_error Mult_error.
From Verif Require Import Num Spec L_Num M_Baselines M_Search M_Float M_Float2 M_Float5 Spec_Float Spec_Float2 L_Float L_Float2 L_Float3 L_Float4 L_Float5 L_Float6 L_Float7 L_Float8 L_Float9 L_Float10 L_Float11 L_Float14 L_Float18.
Import ListNotations.
Open Scope R_scope.

Local Notation pow2 := (bpow radix2).

Lemma complement_ok p : in_unit p -> complementary (fsub f1 p) p.
Proof.
  intros (F & B). destruct f1_ok as (F1 & V1). destruct (fsub_ok f1 p F1 F) as (Fs & Vs); [rewrite V1; apply big4; rewrite Rabs_pos_eq; lra|].
  rewrite V1 in Vs. assert (Us : in_unit (fsub f1 p)).
  { split; [exact Fs|]. rewrite Vs. split; [apply nearest_ge_format; [apply format_0|lra]|apply nearest_le_format; [apply format_1|lra]]. }
  split; [exact Us|]. split; [split; assumption|]. destruct Us as (_ & Bs).
  destruct (fadd_ok (fsub f1 p) p Fs F) as (_ & V); [apply big4; rewrite Rabs_pos_eq; lra|]. rewrite V, Vs, Rplus_comm.
  rewrite <- (nearest_id (val p)) at 1 by apply format_val. apply complement, B.
Qed.

Lemma format_twice x : format (val x * 2).
Proof. change 2 with (pow2 1). apply mult_bpow_pos_exact_FLT; [apply format_val|lia]. Qed.

Lemma midpoint a d : in_unit a -> in_unit d -> val a <= val d ->
  in_unit (fdiv (fadd a d) f2) /\ val a <= val (fdiv (fadd a d) f2) <= val d /\ Rabs (val (fdiv (fadd a d) f2) - (val a + val d) / 2) <= 3 * ulp1.
Proof.
  intros (Fa & Ba) (Fd & Bd) L. destruct f2_ok as (F2 & V2). pose proof ulp1_bounds as (u0 & u1). pose proof tiny as T.
  destruct (fadd_ok a d Fa Fd) as (Fs & Vs); [apply big4; rewrite Rabs_pos_eq; lra|].
  assert (Bs : val a * 2 <= val (fadd a d) <= val d * 2).
  { rewrite Vs. split; [apply nearest_ge_format; [apply format_twice|lra]|apply nearest_le_format; [apply format_twice|lra]]. }
  destruct (fdiv_ok (fadd a d) f2 Fs ltac:(lra)) as (Fm & Vm); [rewrite V2; apply big4; rewrite Rabs_pos_eq; lra|]. rewrite V2 in Vm.
  assert (Bm : val a <= val (fdiv (fadd a d) f2) <= val d).
  { rewrite Vm. split; [apply nearest_ge_format; [apply format_val|lra]|apply nearest_le_format; [apply format_val|lra]]. }
  split; [split; [exact Fm|lra]|]. split; [exact Bm|].
  pose proof (nearest_abs (val a + val d) 2 ltac:(rewrite Rabs_pos_eq; lra)) as N1. rewrite <- Vs in N1.
  pose proof (nearest_abs (val (fadd a d) / 2) 1 ltac:(rewrite Rabs_pos_eq; lra)) as N2. rewrite <- Vm in N2.
  apply Rabs_le_inv in N1, N2. apply Rabs_le. lra.
Qed.

Section Result.
Variables a0 b0 : float.
Hypothesis U : in_unit a0.
Hypothesis U' : in_unit b0.
Variable n : nat.
Hypothesis Long : pow2 (-40) <= golden_ratio ^ n * (val b0 - val a0).

Local Notation ln := (len a0 b0).

Lemma a_lt_b : val a0 < val b0.
Proof using Long.
  pose proof (bpow_gt_0 radix2 (-40)). destruct phi_facts as (P & _). change golden_ratio with invphi in Long.
  assert (Q : 0 < invphi ^ n) by (apply pow_lt; lra). destruct (Rlt_dec (val a0) (val b0)) as [|N]; [assumption|]. exfalso.
  assert (invphi ^ n * (val b0 - val a0) <= invphi ^ n * 0) by (apply Rmult_le_compat_l; lra). lra.
Qed.
Local Notation Lt := a_lt_b.

Lemma n_small : (n < 60)%nat.
Proof using U U' Long.
  destruct (Nat.lt_ge_cases n 60) as [|G]; [assumption|]. exfalso. pose proof Lt as L. change golden_ratio with invphi in Long. destruct phi_facts as (P & _).
  destruct U as (_ & B), U' as (_ & B').
  assert (D : invphi ^ n <= invphi ^ 60).
  { clear - G P. induction G as [|m G IH]; [lra|]. cbn [pow]. assert (0 < invphi ^ m) by (apply pow_lt; lra). nra. }
  assert (T : invphi ^ 10 <= 1/120).
  { apply Rle_trans with (0.6185 ^ 10); [apply pow_incr; lra|]. lra. }
  assert (S : invphi ^ 60 <= (1/120) ^ 6) by (change 60%nat with (10 * 6)%nat; rewrite pow_mult; apply pow_incr; split; [apply pow_le; lra|exact T]).
  assert (Q : (1/120) ^ 6 < pow2 (-40)) by (change (pow2 (-40)) with (/ 1099511627776); lra).
  assert (0 < invphi ^ n) by (apply pow_lt; lra).
  assert (invphi ^ n * (val b0 - val a0) <= invphi ^ n * 1) by (apply Rmult_le_compat_l; lra). lra.
Qed.

Lemma len_mono i j : (i <= j)%nat -> ln j <= ln i.
Proof using Long.
  induction 1 as [|j I IH]; [lra|]. rewrite len_S. pose proof (len_pos a0 b0 Lt j). destruct phi_facts as (P & _). nra.
Qed.

Lemma long i : (i <= n)%nat -> pow2 (-40) <= ln i.
Proof using Long. intros I. apply Rle_trans with (ln n); [exact Long|apply len_mono, I]. Qed.

(** The last step. *)
Definition last : nat := (n - 1)%nat.
Lemma last_len : invphi * ln last <= ln n /\ (last <= n)%nat.
Proof using Long.
  pose proof (len_pos a0 b0 Lt 0) as Z. destruct phi_facts as (P & _). split; [|unfold last; lia]. unfold last. destruct n as [|m] eqn:E; cbn [Nat.sub].
  - nra.
  - rewrite Nat.sub_0_r, len_S. lra.
Qed.

Section Loss.
Variable f : float -> option float.

(** [P i x s] is kept by every step, for any [P] kept together with the tracking. *)
Lemma loop_inv (P : fgolden -> Prop) :
  (forall i x s, (i < n)%nat -> tracks a0 b0 i x s -> P s -> P (golden_step_float f s)) ->
  forall k i x s, (i + k <= n)%nat -> tracks a0 b0 i x s -> P s ->
  exists x', tracks a0 b0 (i + k) x' (golden_loop_float f k s) /\ P (golden_loop_float f k s).
Proof using U U' Long.
  intros St. induction k as [|k IH]; intros i x s I T Ps.
  - exists x. rewrite Nat.add_0_r. split; assumption.
  - cbn [golden_loop_float]. pose proof n_small. destruct (tracks_step a0 b0 U U' Lt f i x s ltac:(lia) (long i ltac:(lia)) T) as (x' & T').
    replace (i + S k)%nat with (S i + k)%nat by lia. apply (IH (S i) x' _ ltac:(lia) T'). apply (St i x); [lia|assumption|assumption].
Qed.

Lemma order i x s : (i <= n)%nat -> tracks a0 b0 i x s ->
  val (fg_a s) < val (fg_c s) /\ val (fg_c s) + ln n / 16 <= val (fg_d s) /\ val (fg_d s) < val (fg_b s) /\
  val (fg_d s) - val (fg_a s) <= invphi * ln i + pow2 (-43) /\ val (fg_b s) - val (fg_c s) <= invphi * ln i + pow2 (-43) /\
  in_unit (fg_a s) /\ in_unit (fg_b s) /\ in_unit (fg_c s) /\ in_unit (fg_d s) /\
  between a0 b0 (fg_a s) /\ between a0 b0 (fg_b s) /\ between a0 b0 (fg_c s) /\ between a0 b0 (fg_d s).
Proof using U U' Long.
  intros I T. pose proof n_small. destruct (tracks_order a0 b0 U U' Lt i x s ltac:(lia) (long i I) T) as (O1 & O2 & O3 & O4 & O5 & O6 & O7).
  pose proof (len_mono i n I). pose proof (len_pos a0 b0 Lt i). destruct T as (_ & Fa & Fb & Fc & Fd & _). destruct U as (_ & B), U' as (_ & B').
  unfold in_unit, between. repeat split; try assumption; lra.
Qed.

(** The losses kept are losses at points of the interval. *)
Definition losses_of (s : fgolden) : Prop :=
  (exists z, between a0 b0 z /\ f z = Some (fg_fc s)) /\ (exists z, between a0 b0 z /\ f z = Some (fg_fd s)).

Lemma step_losses i x s : (i < n)%nat -> tracks a0 b0 i x s -> losses_of s -> losses_of (golden_step_float f s).
Proof using U U' Long.
  intros I T (Lc & Ld). pose proof n_small. destruct (tracks_step a0 b0 U U' Lt f i x s ltac:(lia) (long i ltac:(lia)) T) as (x' & T').
  destruct (order (S i) x' _ ltac:(lia) T') as (_ & _ & _ & _ & _ & _ & _ & _ & _ & _ & _ & Bc & Bd).
  unfold golden_step_float in *. destruct (flt (fg_fc s) (fg_fd s)); cbn [fg_c fg_d fg_fc fg_fd] in *; unfold losses_of; cbn [fg_fc fg_fd].
  - split; [|exact Lc]. destruct (f (fadd (fg_a s) (fmul invphi2_float (fmul invphi_float (fg_h s))))) as [v|] eqn:E; [|exact Lc].
    eexists; split; [exact Bc|exact E].
  - split; [exact Ld|]. destruct (f (fadd (fg_c s) (fmul invphi_float (fmul invphi_float (fg_h s))))) as [v|] eqn:E; [|exact Ld].
    eexists; split; [exact Bd|exact E].
Qed.

Lemma start_tracks s : golden_start_float f a0 b0 = Some s ->
  tracks a0 b0 0 (val a0) s /\ losses_of s /\ f (fg_c s) = Some (fg_fc s) /\ f (fg_d s) = Some (fg_fd s).
Proof using U U' Long.
  unfold golden_start_float. set (c := fadd a0 (fmul invphi2_float (fsub b0 a0))). set (d := fadd a0 (fmul invphi_float (fsub b0 a0))).
  destruct (f c) as [fc|] eqn:Ec; [|discriminate]. destruct (f d) as [fd|] eqn:Ed; [|discriminate]. intros H. injection H as <-.
  pose proof (tracks_start a0 b0 U U' Lt fc fd) as T. fold c d in T. destruct (order 0 _ _ ltac:(lia) T) as (_ & _ & _ & _ & _ & _ & _ & _ & _ & _ & _ & Bc & Bd).
  cbn [fg_c fg_d fg_fc fg_fd] in *. split; [exact T|]. split; [|split; assumption]. split; [exists c; split; assumption|exists d; split; assumption].
Qed.

Lemma start_raises : golden_start_float f a0 b0 = None -> exists z, between a0 b0 z /\ f z = None.
Proof using U U' Long.
  unfold golden_start_float. set (c := fadd a0 (fmul invphi2_float (fsub b0 a0))). set (d := fadd a0 (fmul invphi_float (fsub b0 a0))).
  pose proof (tracks_start a0 b0 U U' Lt f0 f0) as T. fold c d in T. destruct (order 0 _ _ ltac:(lia) T) as (_ & _ & _ & _ & _ & _ & _ & _ & _ & _ & _ & Bc & Bd). cbn [fg_c fg_d] in Bc, Bd.
  destruct (f c) eqn:Ec; [|intros _; exists c; split; assumption]. destruct (f d) eqn:Ed; [discriminate|]. intros _. exists d. split; assumption.
Qed.

Lemma golden_range :
  (golden_float f n a0 b0 = None /\ exists z, between a0 b0 z /\ f z = None) \/
  (exists loss p z, golden_float f n a0 b0 = Some (loss, [fsub f1 p; p]) /\ complementary (fsub f1 p) p /\ between a0 b0 p /\
     between a0 b0 z /\ f z = Some loss).
Proof using U U' Long.
  unfold golden_float. destruct (golden_start_float f a0 b0) as [s|] eqn:E; [|left; split; [reflexivity|apply start_raises, E]]. right.
  destruct (start_tracks s E) as (T & L & _ & _).
  destruct (loop_inv losses_of step_losses last 0 _ _ ltac:(unfold last; lia) T L) as (x & T' & (Lc & Ld)). cbn [Nat.add] in T'. fold last.
  set (s' := golden_loop_float f last s) in *.
  destruct (order last x s' ltac:(unfold last; lia) T') as (O1 & O2 & O3 & _ & _ & Ua & Ub & Uc & Ud & Ba & Bb & _ & _). pose proof (len_pos a0 b0 Lt n).
  unfold golden_end_float. destruct (flt (fg_fc s') (fg_fd s')).
  - destruct (midpoint (fg_a s') (fg_d s') Ua Ud ltac:(lra)) as (Up & Bp & _). destruct Lc as (z & Bz & Ez).
    eexists _, _, z. split; [reflexivity|]. split; [apply complement_ok, Up|]. split; [|split; assumption]. unfold between in *. split; [apply Up|lra].
  - destruct (midpoint (fg_c s') (fg_b s') Uc Ub ltac:(lra)) as (Up & Bp & _). destruct Ld as (z & Bz & Ez).
    eexists _, _, z. split; [reflexivity|]. split; [apply complement_ok, Up|]. split; [|split; assumption]. unfold between in *. split; [apply Up|lra].
Qed.

(** ** Unimodal losses *)

Variable m : R.
Hypothesis Uni : unimodal_doubles (ln n / 16) f a0 b0 m.

Definition bracket (s : fgolden) : Prop :=
  val (fg_a s) <= m <= val (fg_b s) /\ f (fg_c s) = Some (fg_fc s) /\ f (fg_d s) = Some (fg_fd s).

Lemma narrow i x s : (i <= n)%nat -> tracks a0 b0 i x s -> bracket s ->
  (flt (fg_fc s) (fg_fd s) = true -> m <= val (fg_d s)) /\ (flt (fg_fc s) (fg_fd s) = false -> val (fg_c s) <= m).
Proof using U U' Long Uni.
  intros I T (Bm & Ec & Ed). destruct (order i x s I T) as (O1 & O2 & O3 & _ & _ & _ & _ & _ & _ & _ & _ & Bc & Bd).
  destruct Uni as (_ & Tot & Mon). destruct (Tot _ Bc) as (u & Eu & Fu). destruct (Tot _ Bd) as (v & Ev & Fv).
  rewrite Eu in Ec. rewrite Ev in Ed. injection Ec as Ec. injection Ed as Ed. subst u v.
  destruct (Mon _ _ _ _ Bc Bd O2 Eu Ev) as (M1 & M2). split; intros H.
  - apply Rnot_lt_le. intros G. apply (flt_ok _ _ Fu Fv) in H. specialize (M1 ltac:(lra)). lra.
  - apply Rnot_lt_le. intros G. specialize (M2 ltac:(lra)). apply (flt_ok _ _ Fu Fv) in M2. congruence.
Qed.

Lemma step_bracket i x s : (i < n)%nat -> tracks a0 b0 i x s -> bracket s -> bracket (golden_step_float f s).
Proof using U U' Long Uni.
  intros I T B. pose proof n_small. destruct (narrow i x s ltac:(lia) T B) as (N1 & N2).
  destruct (tracks_step a0 b0 U U' Lt f i x s ltac:(lia) (long i ltac:(lia)) T) as (x' & T').
  destruct (order (S i) x' _ ltac:(lia) T') as (_ & _ & _ & _ & _ & _ & _ & _ & _ & _ & _ & Bc & Bd). destruct B as (Bm & Ec & Ed).
  destruct Uni as (_ & Tot & _). destruct (Tot _ Bc) as (u & Eu & Fu). destruct (Tot _ Bd) as (v & Ev & Fv).
  unfold golden_step_float in *. destruct (flt (fg_fc s) (fg_fd s)); unfold bracket; cbn [fg_a fg_b fg_c fg_d fg_fc fg_fd] in *.
  - split; [split; [lra|apply N1; reflexivity]|]. split; [rewrite Eu; reflexivity|exact Ec].
  - split; [split; [apply N2; reflexivity|lra]|]. split; [exact Ed|rewrite Ev; reflexivity].
Qed.

Lemma golden_minimum : exists loss p, golden_float f n a0 b0 = Some (loss, [fsub f1 p; p]) /\
  Rabs (val p - m) <= ln n / 2 + pow2 (-43).
Proof using U U' Long Uni.
  unfold golden_float. destruct (golden_start_float f a0 b0) as [s|] eqn:E.
  2:{ exfalso. destruct (start_raises E) as (z & Bz & Ez). destruct Uni as (_ & Tot & _). destruct (Tot z Bz) as (u & Eu & _). congruence. }
  destruct (start_tracks s E) as (T & _ & Ec & Ed).
  assert (B : bracket s).
  { split; [|split; assumption]. destruct Uni as (Bm & _). unfold golden_start_float in E. destruct (f _); [|discriminate]. destruct (f _); [|discriminate]. injection E as <-. exact Bm. }
  destruct (loop_inv bracket step_bracket last 0 _ _ ltac:(unfold last; lia) T B) as (x & T' & B'). cbn [Nat.add] in T'. fold last.
  set (s' := golden_loop_float f last s) in *.
  destruct (narrow last x s' ltac:(unfold last; lia) T' B') as (N1 & N2). destruct B' as (Bm & _ & _).
  destruct (order last x s' ltac:(unfold last; lia) T') as (O1 & O2 & O3 & O4 & O5 & Ua & Ub & Uc & Ud & _). pose proof (len_pos a0 b0 Lt n).
  destruct last_len as (LL & _). pose proof ulp1_bounds as (u0 & u1).
  assert (E1 : 3 * ulp1 <= pow2 (-43) / 2).
  { apply Rle_trans with (pow2 (-44)); [|change (-43)%Z with (1 + -44)%Z; rewrite (bpow_plus _ 1); change (pow2 1) with 2; lra].
    apply Rle_trans with (4 * ulp1); [lra|]. change 4 with (pow2 2). unfold ulp1. rewrite <- bpow_plus. apply bpow_le. lia. }
  unfold golden_end_float. destruct (flt (fg_fc s') (fg_fd s')).
  - destruct (midpoint (fg_a s') (fg_d s') Ua Ud ltac:(lra)) as (_ & _ & Cp). eexists _, _. split; [reflexivity|]. specialize (N1 eq_refl).
    apply Rabs_le_inv in Cp. apply Rabs_le. lra.
  - destruct (midpoint (fg_c s') (fg_b s') Uc Ub ltac:(lra)) as (_ & _ & Cp). eexists _, _. split; [reflexivity|]. specialize (N2 eq_refl).
    apply Rabs_le_inv in Cp. apply Rabs_le. lra.
Qed.
End Loss.
End Result.
