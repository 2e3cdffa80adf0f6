(** * search.py in double precision: golden section search. *)

From Coq Require Import Reals ZArith List Permutation Lia Lra Bool Psatz.
From Flocq Require Import Core BinarySingleNaN Relative Plus_error.
From Verif Require Import Num Spec L_Num M_Baselines M_Search M_Float M_Float2 M_Float5 Spec_Float L_Float L_Float2 L_Float3 L_Float4 L_Float5 L_Float6 L_Float7 L_Float8 L_Float9 L_Float10 L_Float11 L_Float14.
Import ListNotations.
Open Scope R_scope.

Local Notation pow2 := (bpow radix2).

(** ** The constants *)

Lemma sqrt5_bounds : 2.236 <= sqrt 5 <= 2.237.
Proof.
  split; [apply Rsqr_incr_0_var; [rewrite Rsqr_sqrt by lra; unfold Rsqr; lra|apply sqrt_pos]|].
  apply Rsqr_incr_0_var; [rewrite Rsqr_sqrt by lra; unfold Rsqr; lra|lra].
Qed.

Lemma phi_facts : 0.618 <= invphi <= 0.6185 /\ invphi2 = 1 - invphi /\ invphi * invphi = invphi2.
Proof.
  pose proof sqrt5_bounds. assert (S : sqrt 5 * sqrt 5 = 5) by (apply sqrt_sqrt; lra). unfold invphi, invphi2.
  split; [lra|]. split; [lra|]. nra.
Qed.

Lemma sf_val x m e : B2SF x = SpecFloat.S754_finite false m e -> finite x /\ val x = IZR (Zpos m) * pow2 e.
Proof. unfold finite, val. destruct x as [ | | |s mm ee H]; try discriminate. cbn. intros E. injection E as -> -> ->. split; reflexivity. Qed.

Lemma invphi_float_sf : B2SF invphi_float = SpecFloat.S754_finite false 5566755282872656 (-53).
Proof. vm_compute. reflexivity. Qed.
Lemma invphi2_float_sf : B2SF invphi2_float = SpecFloat.S754_finite false 6880887943736672 (-54).
Proof. vm_compute. reflexivity. Qed.

Lemma invphi_float_ok : finite invphi_float /\ Rabs (val invphi_float - invphi) <= ulp1.
Proof.
  destruct (sf_val _ _ _ invphi_float_sf) as (F & V). split; [exact F|]. rewrite V. unfold ulp1, invphi.
  set (u := pow2 (-53)). assert (U : u * IZR (2 ^ 53) = 1) by (unfold u; change (IZR (2 ^ 53)) with (pow2 53); rewrite <- bpow_plus; reflexivity).
  assert (u0 : 0 < u) by apply bpow_gt_0. assert (S : sqrt 5 * sqrt 5 = 5) by (apply sqrt_sqrt; lra). pose proof (sqrt_pos 5).
  change (2 ^ 53)%Z with 9007199254740992%Z in U.
  assert (L : (2 * 5566755282872655 + 9007199254740992) * u <= sqrt 5).
  { apply Rsqr_incr_0_var; [|apply sqrt_pos]. rewrite Rsqr_sqrt by lra. unfold Rsqr.
    apply Rmult_le_reg_r with (9007199254740992 * 9007199254740992); [lra|].
    replace ((2 * 5566755282872655 + 9007199254740992) * u * ((2 * 5566755282872655 + 9007199254740992) * u) * (9007199254740992 * 9007199254740992))
      with ((2 * 5566755282872655 + 9007199254740992) * (2 * 5566755282872655 + 9007199254740992) * (u * 9007199254740992) * (u * 9007199254740992)) by ring.
    rewrite U. lra. }
  assert (G : sqrt 5 <= (2 * 5566755282872657 + 9007199254740992) * u).
  { apply Rsqr_incr_0_var; [|nra]. rewrite Rsqr_sqrt by lra. unfold Rsqr.
    apply Rmult_le_reg_r with (9007199254740992 * 9007199254740992); [lra|].
    replace ((2 * 5566755282872657 + 9007199254740992) * u * ((2 * 5566755282872657 + 9007199254740992) * u) * (9007199254740992 * 9007199254740992))
      with ((2 * 5566755282872657 + 9007199254740992) * (2 * 5566755282872657 + 9007199254740992) * (u * 9007199254740992) * (u * 9007199254740992)) by ring.
    rewrite U. lra. }
  apply Rabs_le. lra.
Qed.

Lemma invphi2_float_ok : finite invphi2_float /\ Rabs (val invphi2_float - invphi2) <= ulp1.
Proof.
  destruct (sf_val _ _ _ invphi2_float_sf) as (F & V). split; [exact F|].
  destruct (sf_val _ _ _ invphi_float_sf) as (_ & V1). pose proof (proj2 invphi_float_ok) as E.
  assert (X : val invphi2_float = 1 - val invphi_float).
  { rewrite V, V1. change (-53)%Z with (1 + -54)%Z. rewrite bpow_plus. change (pow2 1) with 2.
    assert (U : pow2 (-54) * IZR (2 ^ 54) = 1) by (change (IZR (2 ^ 54)) with (pow2 54); rewrite <- bpow_plus; reflexivity).
    change (2 ^ 54)%Z with 18014398509481984%Z in U. lra. }
  rewrite X. destruct phi_facts as (_ & -> & _). replace (1 - val invphi_float - (1 - invphi)) with (- (val invphi_float - invphi)) by ring. rewrite Rabs_Ropp. exact E.
Qed.

Lemma nearest_abs x B : Rabs x <= B -> Rabs (nearest x - x) <= ulp1 * B + pow2 (-1075).
Proof.
  intros H. apply Rle_trans with (1 := nearest_mixed x). assert (0 < ulp1) by apply bpow_gt_0.
  apply Rplus_le_compat_r, Rmult_le_compat_l; lra.
Qed.

(** ** The exact length of the interval after i steps *)

Section Golden.
Variables a0 b0 : float.
Hypothesis U : in_unit a0.
Hypothesis U' : in_unit b0.
Hypothesis Lt : val a0 < val b0.

Definition len (i : nat) : R := invphi ^ i * (val b0 - val a0).

Lemma len_S i : len (S i) = invphi * len i.
Proof using. unfold len. cbn [pow]. ring. Qed.

Lemma len_pos i : 0 < len i.
Proof using Lt. destruct phi_facts as (P & _). unfold len. apply Rmult_lt_0_compat; [apply pow_lt; lra|lra]. Qed.

Lemma pow_small i : 0 < invphi ^ i <= 1 /\ INR i * invphi ^ i <= 1.
Proof using.
  destruct phi_facts as (P & _).
  assert (H : forall j, 0 < invphi ^ j <= 1).
  { induction j as [|j IH]; [cbn; lra|]. cbn [pow]. split; [apply Rmult_lt_0_compat; lra|]. apply Rle_trans with (1 * 1); [apply Rmult_le_compat; lra|lra]. }
  split; [apply H|]. induction i as [|i IH]; [cbn; lra|]. destruct i as [|[|i]]; [cbn; lra|cbn; nra|].
  rewrite S_INR. pose proof (H (S (S i))) as Hi. change (invphi ^ S (S (S i))) with (invphi * invphi ^ S (S i)).
  assert (2 <= INR (S (S i))) by (rewrite !S_INR; pose proof (pos_INR i); lra).
  apply Rle_trans with (INR (S (S i)) * invphi ^ S (S i)); [|exact IH].
  replace ((INR (S (S i)) + 1) * (invphi * invphi ^ S (S i))) with (((INR (S (S i)) + 1) * invphi) * invphi ^ S (S i)) by ring.
  apply Rmult_le_compat_r; [lra|]. nra.
Qed.

Lemma len_le i : len i <= 1 /\ INR i * len i <= 1.
Proof using U U' Lt.
  destruct U as (_ & B), U' as (_ & B'). destruct (pow_small i) as (P & Q). unfold len. split.
  - apply Rle_trans with (1 * 1); [apply Rmult_le_compat; lra|lra].
  - rewrite <- Rmult_assoc. apply Rle_trans with (1 * 1); [apply Rmult_le_compat; try lra|lra]. apply Rmult_le_pos; [apply pos_INR|lra].
Qed.

(** Floating-point h. *)
Definition h_close (i : nat) (h : float) : Prop := finite h /\ Rabs (val h - len i) <= (3 * INR i + 1) * ulp1 * len i + INR (i + 1) * pow2 (-1075).

(* everything below 2^-1074 is noise *)
Lemma tiny : 0 < pow2 (-1075) <= ulp1 * (1/1000000).
Proof using.
  split; [apply bpow_gt_0|]. apply Rle_trans with (ulp1 * pow2 (-20)); [unfold ulp1; rewrite <- bpow_plus; apply bpow_le; lia|].
  apply Rmult_le_compat_l; [apply bpow_ge_0|]. change (pow2 (-20)) with (/ 1048576). lra.
Qed.

Lemma h_abs i h : (i <= 60)%nat -> h_close i h -> Rabs (val h - len i) <= 5 * ulp1 /\ 0 <= len i <= 1 /\ -0.001 <= val h <= 1.001.
Proof using U U' Lt.
  intros I (F & C). destruct (len_le i) as (L1 & L2). pose proof (len_pos i) as L0. pose proof ulp1_bounds as (u0 & u1). pose proof tiny as T.
  assert (Ii : 0 <= INR i <= 60) by (split; [apply pos_INR|]; replace 60 with (INR 60) by (cbn; lra); apply le_INR, I).
  assert (D : Rabs (val h - len i) <= 5 * ulp1).
  { apply Rle_trans with (1 := C). rewrite plus_INR. change (INR 1) with 1.
    replace ((3 * INR i + 1) * ulp1 * len i) with (ulp1 * (3 * (INR i * len i) + len i)) by ring.
    assert (ulp1 * (3 * (INR i * len i) + len i) <= ulp1 * 4) by (apply Rmult_le_compat_l; lra).
    assert ((INR i + 1) * pow2 (-1075) <= 61 * pow2 (-1075)) by (apply Rmult_le_compat_r; lra). lra. }
  split; [exact D|]. split; [lra|]. apply Rabs_le_inv in D. lra.
Qed.

Lemma h_start : finite (fsub b0 a0) /\ h_close 0 (fsub b0 a0).
Proof using U U' Lt.
  destruct (sub_unit b0 a0 U' U) as (F & V). split; [exact F|]. split; [exact F|]. rewrite V. destruct (sub_error b0 a0) as (d & Hd & Ed). rewrite Ed.
  unfold len. cbn [pow]. replace ((val b0 - val a0) * (1 + d) - 1 * (val b0 - val a0)) with (d * (val b0 - val a0)) by ring.
  rewrite Rabs_mult, (Rabs_pos_eq (val b0 - val a0)) by lra. pose proof tiny. cbn [INR plus].
  assert (Rabs d * (val b0 - val a0) <= ulp1 * (val b0 - val a0)) by (apply Rmult_le_compat_r; lra). lra.
Qed.

Lemma prod_close f r i h : finite f -> 0 <= r <= 0.62 -> Rabs (val f - r) <= ulp1 -> (i <= 60)%nat -> h_close i h ->
  finite (fmul f h) /\ Rabs (val (fmul f h) - r * len i) <= 5 * ulp1.
Proof using U U' Lt.
  intros Ff R0 Cf I Ch. destruct (h_abs i h I Ch) as (Dh & L & Bh). destruct Ch as (Fh & _). pose proof ulp1_bounds as (u0 & u1). pose proof tiny as T.
  apply Rabs_le_inv in Cf, Dh.
  assert (P : Rabs (val f * val h) <= 0.7).
  { rewrite Rabs_mult. apply Rle_trans with (0.63 * 1.002); [|lra]. apply Rmult_le_compat; try apply Rabs_pos; apply Rabs_le; lra. }
  destruct (fmul_ok f h Ff Fh) as (F & V); [apply big4; lra|]. split; [exact F|]. rewrite V.
  pose proof (nearest_abs _ _ P) as N. apply Rabs_le_inv in N.
  assert (D : Rabs (val f * val h - r * len i) <= 4.2 * ulp1).
  { replace (val f * val h - r * len i) with ((val f - r) * val h + r * (val h - len i)) by ring.
    apply Rle_trans with (1 := Rabs_triang _ _). rewrite !Rabs_mult.
    assert (Rabs (val f - r) * Rabs (val h) <= ulp1 * 1.002) by (apply Rmult_le_compat; try apply Rabs_pos; apply Rabs_le; lra).
    assert (Rabs r * Rabs (val h - len i) <= 0.62 * (5 * ulp1)) by (apply Rmult_le_compat; try apply Rabs_pos; apply Rabs_le; lra). lra. }
  apply Rabs_le_inv in D. apply Rabs_le. lra.
Qed.

Lemma h_step i h : (i < 60)%nat -> h_close i h -> h_close (S i) (fmul invphi_float h).
Proof using U U' Lt.
  intros I Ch. destruct invphi_float_ok as (Ff & Cf). destruct phi_facts as (P & _).
  destruct (prod_close invphi_float invphi i h Ff ltac:(lra) Cf ltac:(lia) Ch) as (F & _). split; [exact F|].
  destruct (h_abs i h ltac:(lia) Ch) as (Dh & L & Bh). destruct Ch as (Fh & C). pose proof ulp1_bounds as (u0 & u1). pose proof tiny as T.
  apply Rabs_le_inv in Cf.
  assert (Pr : Rabs (val invphi_float * val h) <= 4).
  { rewrite Rabs_mult. apply Rle_trans with (0.63 * 1.002); [|lra]. apply Rmult_le_compat; try apply Rabs_pos; apply Rabs_le; lra. }
  destruct (fmul_ok invphi_float h Ff Fh) as (_ & V); [apply big4, Pr|]. rewrite V, len_S.
  set (l := len i) in *. set (v := val h) in *. set (f := val invphi_float) in *. set (t := pow2 (-1075)) in *.
  assert (Ii : 0 <= INR i <= 60) by (split; [apply pos_INR|]; replace 60 with (INR 60) by (cbn; lra); apply le_INR; lia).
  rewrite plus_INR in *. rewrite S_INR. change (INR 1) with 1 in *. set (k := INR i) in *.
  pose proof (nearest_mixed (f * v)) as N. fold t in N.
  assert (D : Rabs (f * v - invphi * l) <= ulp1 * Rabs v + invphi * ((3 * k + 1) * ulp1 * l + (k + 1) * t)).
  { replace (f * v - invphi * l) with ((f - invphi) * v + invphi * (v - l)) by ring. apply Rle_trans with (1 := Rabs_triang _ _). rewrite !Rabs_mult.
    apply Rplus_le_compat; [apply Rmult_le_compat_r; [apply Rabs_pos|apply Rabs_le; lra]|]. rewrite (Rabs_pos_eq invphi) by lra. apply Rmult_le_compat_l; [lra|exact C]. }
  assert (Av : Rabs v <= 1.001 * l + 61 * t).
  { replace v with (l + (v - l)) by ring. apply Rle_trans with (1 := Rabs_triang _ _). rewrite (Rabs_pos_eq l) by lra.
    assert ((3 * k + 1) * ulp1 * l <= 0.001 * l) by (apply Rmult_le_compat_r; [lra|]; apply Rle_trans with (181 * (1/1000000)); [apply Rmult_le_compat; lra|lra]).
    assert ((k + 1) * t <= 61 * t) by (apply Rmult_le_compat_r; lra). lra. }
  assert (Afv : Rabs (f * v) <= 0.62 * Rabs v).
  { rewrite Rabs_mult. apply Rmult_le_compat_r; [apply Rabs_pos|]. apply Rabs_le. lra. }
  assert (E1 : ulp1 * Rabs v <= ulp1 * (1.001 * l + 61 * t)) by (apply Rmult_le_compat_l; lra).
  assert (E2 : ulp1 * Rabs (f * v) <= ulp1 * (0.62 * (1.001 * l + 61 * t))) by (apply Rmult_le_compat_l; lra).
  assert (E3 : ulp1 * t <= 0.000001 * t) by (apply Rmult_le_compat_r; lra).
  assert (ul : 0 <= ulp1 * l) by (apply Rmult_le_pos; lra).
  assert (E4 : 1.001 * (ulp1 * l) + 0.62 * (1.001 * (ulp1 * l)) <= 3 * invphi * (ulp1 * l)).
  { replace (1.001 * (ulp1 * l) + 0.62 * (1.001 * (ulp1 * l))) with (1.62162 * (ulp1 * l)) by lra. apply Rmult_le_compat_r; lra. }
  assert (E5 : invphi * ((k + 1) * t) <= 0.7 * ((k + 1) * t)) by (apply Rmult_le_compat_r; [apply Rmult_le_pos; lra|lra]).
  assert (E6 : 0 <= k * t) by (apply Rmult_le_pos; lra).
  apply Rle_trans with (Rabs (nearest (f * v) - f * v) + Rabs (f * v - invphi * l)).
  { replace (nearest (f * v) - invphi * l) with ((nearest (f * v) - f * v) + (f * v - invphi * l)) by ring. apply Rabs_triang. }
  apply Rle_trans with (ulp1 * Rabs (f * v) + t + (ulp1 * Rabs v + invphi * ((3 * k + 1) * ulp1 * l + (k + 1) * t))); [lra|].
  replace (invphi * ((3 * k + 1) * ulp1 * l + (k + 1) * t)) with ((3 * k + 1) * ulp1 * (invphi * l) + invphi * ((k + 1) * t)) by ring.
  replace ((3 * (k + 1) + 1) * ulp1 * (invphi * l) + (k + 1 + 1) * t) with ((3 * k + 1) * ulp1 * (invphi * l) + 3 * invphi * (ulp1 * l) + (k * t + 2 * t)) by ring.
  assert (invphi * ((k + 1) * t) <= 0.7 * (k * t) + 0.7 * t) by lra. lra.
Qed.

(** ** The state against exact arithmetic: [x] is the exact left end *)

Definition err (i : nat) : R := (8 * INR i + 8) * ulp1.

Lemma err_bound i : (i <= 60)%nat -> 8 * ulp1 <= err i <= pow2 (-44).
Proof using.
  intros I. assert (Ii : 0 <= INR i <= 60) by (split; [apply pos_INR|]; replace 60 with (INR 60) by (cbn; lra); apply le_INR, I).
  pose proof ulp1_bounds as (u0 & _). unfold err. split; [apply Rmult_le_compat_r; lra|].
  apply Rle_trans with (512 * ulp1); [apply Rmult_le_compat_r; lra|]. change 512 with (pow2 9). unfold ulp1. rewrite <- bpow_plus. apply bpow_le. lia.
Qed.

Definition tracks (i : nat) (x : R) (s : fgolden) : Prop :=
  h_close i (fg_h s) /\ finite (fg_a s) /\ finite (fg_b s) /\ finite (fg_c s) /\ finite (fg_d s) /\
  Rabs (val (fg_a s) - x) <= err i /\ Rabs (val (fg_c s) - (x + invphi2 * len i)) <= err i /\
  Rabs (val (fg_d s) - (x + invphi * len i)) <= err i /\ Rabs (val (fg_b s) - (x + len i)) <= err i /\
  val a0 <= val (fg_a s) /\ val (fg_b s) <= val b0.

(** A new point. *)
Lemma point i a x f r h e : finite f -> 0 <= r <= 0.62 -> Rabs (val f - r) <= ulp1 -> (i <= 60)%nat -> h_close i h ->
  finite a -> -0.001 <= val a <= 1.001 -> Rabs (val a - x) <= e ->
  finite (fadd a (fmul f h)) /\ Rabs (val (fadd a (fmul f h)) - (x + r * len i)) <= e + 8 * ulp1.
Proof using U U' Lt.
  intros Ff R0 Cf I Ch Fa Ba Ca. destruct (prod_close f r i h Ff R0 Cf I Ch) as (Fp & Cp). destruct (h_abs i h I Ch) as (_ & L & _).
  pose proof ulp1_bounds as (u0 & u1). pose proof tiny as T. apply Rabs_le_inv in Ca, Cp.
  assert (rl : 0 <= r * len i <= 0.62) by (split; [apply Rmult_le_pos; lra|apply Rle_trans with (0.62 * 1); [apply Rmult_le_compat; lra|lra]]).
  assert (B : Rabs (val a + val (fmul f h)) <= 2) by (apply Rabs_le; lra).
  destruct (fadd_ok a (fmul f h) Fa Fp) as (F & V); [apply big4; lra|]. split; [exact F|]. rewrite V.
  pose proof (nearest_abs _ _ B) as N. apply Rabs_le_inv in N. apply Rabs_le. lra.
Qed.

Lemma tracks_start fc fd : tracks 0 (val a0)
  {| fg_a := a0; fg_b := b0; fg_c := fadd a0 (fmul invphi2_float (fsub b0 a0)); fg_d := fadd a0 (fmul invphi_float (fsub b0 a0)); fg_h := fsub b0 a0; fg_fc := fc; fg_fd := fd |}.
Proof using U U' Lt.
  destruct h_start as (_ & H). destruct invphi_float_ok as (F1 & C1), invphi2_float_ok as (F2 & C2). destruct phi_facts as (P & Q & _).
  destruct U as (Fa & Ba). destruct U' as (Fb & Bb). pose proof ulp1_bounds as (u0 & u1).
  destruct (point 0 a0 (val a0) invphi_float invphi (fsub b0 a0) 0 F1 ltac:(lra) C1 ltac:(lia) H Fa ltac:(lra) ltac:(rewrite Rminus_diag_eq, Rabs_R0 by reflexivity; lra)) as (Fd & Cd).
  destruct (point 0 a0 (val a0) invphi2_float invphi2 (fsub b0 a0) 0 F2 ltac:(lra) C2 ltac:(lia) H Fa ltac:(lra) ltac:(rewrite Rminus_diag_eq, Rabs_R0 by reflexivity; lra)) as (Fc & Cc).
  unfold tracks, err. cbn [fg_h fg_a fg_b fg_c fg_d INR]. rewrite Rmult_0_r, Rplus_0_l.
  split; [exact H|]. do 4 (split; [assumption|]). split; [rewrite Rminus_diag_eq, Rabs_R0 by reflexivity; lra|].
  split; [rewrite Rplus_0_l in Cc; exact Cc|]. split; [rewrite Rplus_0_l in Cd; exact Cd|].
  split; [|lra]. unfold len. cbn [pow]. replace (val b0 - (val a0 + 1 * (val b0 - val a0))) with 0 by ring. rewrite Rabs_R0. lra.
Qed.

(** The order of the points, as long as the interval is long enough. *)
Lemma tracks_order i x s : (i <= 60)%nat -> pow2 (-40) <= len i -> tracks i x s ->
  val (fg_a s) < val (fg_c s) /\ val (fg_c s) + len i / 16 <= val (fg_d s) /\ val (fg_d s) < val (fg_b s) /\
  val (fg_d s) - val (fg_a s) <= invphi * len i + pow2 (-43) /\ val (fg_b s) - val (fg_c s) <= invphi * len i + pow2 (-43) /\
  val a0 <= val (fg_a s) /\ val (fg_b s) <= val b0.
Proof using U U' Lt.
  intros I L (Hh & Fa & Fb & Fc & Fd & Ca & Cc & Cd & Cb & Ga & Gb). pose proof (err_bound i I) as E. destruct phi_facts as (P & Q & _). rewrite Q in *.
  assert (E1 : pow2 (-43) = 2 * pow2 (-44)) by (change (-43)%Z with (1 + -44)%Z; rewrite bpow_plus; reflexivity).
  assert (E2 : pow2 (-40) = 16 * pow2 (-44)) by (change (-40)%Z with (4 + -44)%Z; rewrite bpow_plus; reflexivity).
  set (l := len i) in *. apply Rabs_le_inv in Ca, Cc, Cd, Cb. assert (0.618 * l <= invphi * l <= 0.6185 * l) by (split; apply Rmult_le_compat_r; pose proof (bpow_gt_0 radix2 (-44)); lra).
  pose proof (bpow_gt_0 radix2 (-44)). repeat split; lra.
Qed.

Lemma tracks_step f i x s : (i < 60)%nat -> pow2 (-40) <= len i -> tracks i x s ->
  exists x', tracks (S i) x' (golden_step_float f s).
Proof using U U' Lt.
  intros I L T. destruct (tracks_order i x s ltac:(lia) L T) as (O1 & O2 & O3 & _ & _ & O4 & O5).
  destruct T as (Hh & Fa & Fb & Fc & Fd & Ca & Cc & Cd & Cb & Ga & Gb).
  pose proof (h_step i _ I Hh) as Hn. destruct invphi_float_ok as (F1 & C1), invphi2_float_ok as (F2 & C2). destruct phi_facts as (P & Q & W).
  pose proof (len_pos i) as L0. destruct U as (_ & Ba0). destruct U' as (_ & Bb0). pose proof ulp1_bounds as (u0 & u1).
  assert (E : err (S i) = err i + 8 * ulp1) by (unfold err; rewrite S_INR; ring).
  assert (W2 : invphi * (invphi * len i) = invphi2 * len i) by (rewrite <- W; ring).
  assert (W3 : invphi2 * len i + invphi2 * (invphi * len i) = invphi * len i) by (rewrite Q; replace ((1 - invphi) * (invphi * len i)) with (invphi * len i - invphi * (invphi * len i)) by ring; rewrite W2, Q; ring).
  assert (W4 : invphi2 * len i + invphi * len i = len i) by (rewrite Q; ring).
  unfold golden_step_float. destruct (flt (fg_fc s) (fg_fd s)).
  - exists x. destruct (point (S i) (fg_a s) x invphi2_float invphi2 _ (err i) F2 ltac:(lra) C2 ltac:(lia) Hn Fa ltac:(lra) Ca) as (Fn & Cn).
    unfold tracks. cbn [fg_h fg_a fg_b fg_c fg_d]. rewrite E in *. rewrite len_S in *.
    split; [exact Hn|]. do 4 (split; [assumption|]). split; [lra|]. split; [exact Cn|].
    split; [rewrite W2; lra|]. split; [lra|]. split; lra.
  - exists (x + invphi2 * len i). destruct (point (S i) (fg_c s) (x + invphi2 * len i) invphi_float invphi _ (err i) F1 ltac:(lra) C1 ltac:(lia) Hn Fc ltac:(lra) Cc) as (Fn & Cn).
    unfold tracks. cbn [fg_h fg_a fg_b fg_c fg_d]. rewrite E in *. rewrite len_S in *.
    split; [exact Hn|]. do 4 (split; [assumption|]). split; [lra|].
    split; [replace (x + invphi2 * len i + invphi2 * (invphi * len i)) with (x + invphi * len i) by lra; lra|]. split; [exact Cn|].
    split; [replace (x + invphi2 * len i + invphi * len i) with (x + len i) by lra; lra|]. split; lra.
Qed.
End Golden.
