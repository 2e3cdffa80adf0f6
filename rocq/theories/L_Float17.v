(** * The probabilistic symmetric distance in double precision: accuracy. *)

From Coq Require Import Reals ZArith List Permutation Lia Lra Bool Psatz.
From Flocq Require Import Core BinarySingleNaN Relative Plus_error Mult_error.
From Verif Require Import Num Spec L_Num M_Baselines M_Metrics L_Metrics M_Float M_Float2 M_Float3 M_Float4 Spec_Float L_Float L_Float2 L_Float3 L_Float4 L_Float5 L_Float6 L_Float7 L_Float8 L_Float9 L_Float10 L_Float11 L_Float12 L_Float13 L_Float14 L_Float16.
Import ListNotations.
Open Scope R_scope.

Local Notation pow2 := (bpow radix2).

Section Eps.
Variable epsilon : float.
Hypothesis Ue : in_unit epsilon.
Hypothesis Le : pow2 (-70) <= val epsilon.

Lemma denominator a b : in_unit a -> in_unit b ->
  finite (fadd (fadd b a) epsilon) /\ val (fadd b a) <= val (fadd (fadd b a) epsilon) /\ val epsilon <= val (fadd (fadd b a) epsilon) <= 4 /\
  Rabs (val (fadd (fadd b a) epsilon) - (val b + val a + val epsilon)) <= 3 * ulp1 * (val b + val a + val epsilon).
Proof using Ue.
  intros Ua Ub. destruct (add_unit2 b a Ub Ua) as ((F1 & B1) & V1). change (pow2 1) with 2 in B1. destruct Ue as (Fe & Be).
  destruct (fadd_ok (fadd b a) epsilon F1 Fe) as (F2 & V2); [apply big4; rewrite Rabs_pos_eq; lra|].
  split; [exact F2|]. split; [rewrite V2; apply nearest_ge_format; [apply format_val|lra]|].
  split; [rewrite V2; split; [apply nearest_ge_format; [apply format_val|lra]|apply nearest_le_format; [apply (format_Z 4); lia|lra]]|].
  destruct (add_term b a Ub Ua) as (_ & N & C). rewrite Rplus_0_r in C. apply Rabs_le_inv in C.
  destruct (add_error (fadd b a) epsilon) as (d & Hd & Ed). rewrite <- V2 in Ed. pose proof ulp1_bounds as (u0 & u1). apply Rabs_le_inv in Hd.
  set (s := val b + val a) in *. set (t := val (fadd b a)) in *. set (e := val epsilon) in *.
  assert (D : Rabs ((t + e) * d) <= ulp1 * (t + e)).
  { rewrite Rabs_mult, (Rabs_pos_eq (t + e)) by lra. rewrite Rmult_comm. apply Rmult_le_compat_r; [lra|apply Rabs_le; lra]. }
  apply Rabs_le_inv in D. rewrite Ed. replace ((t + e) * (1 + d) - (s + e)) with ((t - s) + (t + e) * d) by ring.
  assert (0 <= ulp1 * s) by (apply Rmult_le_pos; lra). assert (0 <= ulp1 * e) by (apply Rmult_le_pos; lra).
  assert (ulp1 * t <= ulp1 * (2 * s)) by (apply Rmult_le_compat_l; [lra|]; assert (ulp1 * s <= 1 * s) by (apply Rmult_le_compat_r; lra); lra).
  apply Rabs_le. lra.
Qed.




Lemma psd_term : term_close2 (fun a b => fdiv (fsquare (fsub a b)) (fadd (fadd b a) epsilon))
  (fun a b => (a - b) ^ 2 / (b + a + val epsilon)) (9 * ulp1) (pow2 (-1003)).
Proof using Ue Le.
  intros a b Ua Ub. destruct (denominator a b Ua Ub) as (Fm & Gm & Bm & Cm). destruct (square_term a b Ua Ub) as ((Fn & Bn) & Nn & Cn).
  set (x := fsub a b) in *. pose proof (sub_unit a b Ua Ub) as (Fx & Vx). fold x in Fx, Vx.
  destruct Ua as (Fa & Ba), Ub as (Fb & Bb). pose proof ulp1_bounds as (u0 & u1). pose proof (bpow_gt_0 radix2 (-70)) as e0.
  set (m := val b + val a + val epsilon) in *. assert (m0 : pow2 (-70) <= m) by (unfold m; lra).
  set (n := (val a - val b) ^ 2) in *. set (fm := fadd (fadd b a) epsilon) in *. set (fn := fsquare x) in *.
  assert (P75 : 0 < pow2 (-1075)) by apply bpow_gt_0.
  destruct (ratio_error n (val fn) m (val fm) (4 * ulp1) (pow2 (-1075)) (3 * ulp1) Nn ltac:(lra) ltac:(lra) ltac:(lra) ltac:(lra) Cn Cm) as (P & Q).
  assert (R0 : 0 <= n / m) by (apply Rdiv_le_0_compat; lra).
  (* the computed square is at most the computed denominator *)
  assert (T : val fn / val fm <= 1).
  { apply Rmult_le_reg_r with (val fm); [exact P|]. unfold Rdiv. rewrite Rmult_assoc, Rinv_l, Rmult_1_r, Rmult_1_l by lra.
    apply Rle_trans with (val (fadd b a)); [|exact Gm]. destruct (add_unit2 b a (conj Fb Bb) (conj Fa Ba)) as (_ & V). rewrite V.
    unfold fn, fsquare. destruct (fmul_ok x x Fx Fx) as (_ & Vm).
    { apply big4. rewrite Vx. assert (Rabs (nearest (val a - val b)) <= 1) by (apply Rabs_le; split; [apply nearest_ge_format; [apply (format_Z (-1)); lia|lra]|apply nearest_le_format; [apply format_1|lra]]).
      rewrite Rabs_mult. pose proof (Rabs_pos (nearest (val a - val b))). nra. }
    rewrite Vm. assert (Ax : val x * val x <= Rabs (val x)).
    { assert (Rabs (val x) <= 1) by (rewrite Vx; apply Rabs_le; split; [apply nearest_ge_format; [apply (format_Z (-1)); lia|lra]|apply nearest_le_format; [apply format_1|lra]]).
      pose proof (Rabs_pos (val x)). unfold Rabs in *. destruct (Rcase_abs (val x)); nra. }
    apply Rle_trans with (nearest (Rabs (val x))); [apply nearest_le, Ax|].
    rewrite nearest_id by (apply generic_format_abs, format_val). rewrite Vx.
    unfold Rabs. destruct (Rcase_abs _); [rewrite <- nearest_opp|]; apply nearest_le; lra. }
  assert (T0 : 0 <= val fn / val fm) by (apply Rdiv_le_0_compat; lra).
  destruct (fdiv_ok fn fm Fn ltac:(lra)) as (F & V); [apply big4; rewrite Rabs_pos_eq; lra|].
  split; [split; [exact F|]; rewrite V; change (pow2 1) with 2; split; [apply nearest_ge_format; [apply format_0|exact T0]|apply nearest_le_format; [apply (format_Z 2); lia|lra]]|].
  split; [exact R0|]. rewrite V. pose proof (nearest_mixed (val fn / val fm)) as M. rewrite (Rabs_pos_eq _ T0) in M.
  assert (Q' : Rabs (val fn / val fm - n / m) <= 7.1 * ulp1 * (n / m) + 1.1 * pow2 (-1005)).
  { apply Rle_trans with (1 := Q). apply Rplus_le_compat.
    - apply Rmult_le_compat_r; [exact R0|]. apply Rmult_le_reg_r with (1 - 3 * ulp1); [lra|]. unfold Rdiv. rewrite Rmult_assoc, Rinv_l by lra. nra.
    - apply Rmult_le_reg_r with ((1 - 3 * ulp1) * m); [apply Rmult_lt_0_compat; lra|]. unfold Rdiv. rewrite Rmult_assoc, Rinv_l, Rmult_1_r by (apply Rgt_not_eq, Rmult_lt_0_compat; lra).
      change (-1075)%Z with (-1005 + -70)%Z. rewrite bpow_plus. pose proof (bpow_gt_0 radix2 (-1005)). rewrite (Rmult_comm 1.1), Rmult_assoc.
      apply Rmult_le_compat_l; [lra|]. rewrite <- Rmult_assoc. apply Rle_trans with (1 * pow2 (-70)); [lra|]. apply Rmult_le_compat; lra. }
  set (r := n / m) in *. set (v := val fn / val fm) in *. apply Rabs_le_inv in Q', M.
  assert (H1 : pow2 (-1005) = / 4 * pow2 (-1003)) by (change (-1005)%Z with (-2 + -1003)%Z; rewrite bpow_plus; reflexivity).
  assert (H2 : pow2 (-1075) <= / 4 * pow2 (-1003)) by (rewrite <- H1; apply bpow_le; lia).
  assert (P03 : 0 < pow2 (-1003)) by apply bpow_gt_0.
  assert (K : ulp1 * v <= ulp1 * (1.1 * r + pow2 (-1003))).
  { apply Rmult_le_compat_l; [lra|]. assert (7.1 * ulp1 * r <= 0.1 * r) by (apply Rmult_le_compat_r; lra). lra. }
  assert (0 <= ulp1 * r) by (apply Rmult_le_pos; lra). assert (ulp1 * pow2 (-1003) <= 0.1 * pow2 (-1003)) by (apply Rmult_le_compat_r; lra).
  apply Rabs_le. lra.
Qed.

Lemma osum_terms p q : Forall in_unit p -> Forall in_unit q -> length p = length q ->
  osum (map2 (fun a b => odiv ((a - b) ^ 2) (b + a + val epsilon)) (map val p) (map val q)) =
  Val (rsum (vmap2 (fun a b => (a - b) ^ 2 / (b + a + val epsilon)) (map val p) (map val q))).
Proof using Le.
  intros Up. revert q. induction Up as [|a p (Fa & Ba) Up IH]; intros q Uq L.
  - destruct q; [|discriminate L]. reflexivity.
  - destruct q as [|b q]; [discriminate L|]. inversion Uq as [|b' q' (Fb & Bb) Uq']; subst. injection L as L. specialize (IH q Uq' L).
    cbn [map map2 osum]. rewrite IH. unfold odiv at 1. pose proof (bpow_gt_0 radix2 (-70)). destruct (Req_EM_T (val b + val a + val epsilon) 0); [lra|]. reflexivity.
Qed.

Lemma double_exact x : finite x -> Rabs (val x) <= pow2 900 -> finite (fmul f2 x) /\ val (fmul f2 x) = 2 * val x.
Proof using.
  intros F B. destruct f2_ok as (F2 & V2).
  destruct (fmul_ok f2 x F2 F) as (G & V).
  { rewrite V2, Rabs_mult, (Rabs_pos_eq 2) by lra. apply Rle_trans with (2 * pow2 900); [lra|]. change 2 with (pow2 1). rewrite <- bpow_plus. apply bpow_le. lia. }
  split; [exact G|]. rewrite V, V2. apply nearest_id. replace (2 * val x) with (val x * pow2 1) by (change (pow2 1) with 2; ring).
  apply mult_bpow_pos_exact_FLT; [apply format_val|lia].
Qed.

Lemma probsymmetric_accuracy np_sum p q : adds_in_some_order np_sum -> p <> [] -> length p = length q -> (Z.of_nat (length p) <= 2 ^ 49)%Z ->
  Forall in_unit p -> Forall in_unit q ->
  finite (probsymmetric_float np_sum epsilon p q) /\ 0 <= val (probsymmetric_float np_sum epsilon p q) /\
  exists d, probsymmetric (val epsilon) (vec (map val p)) (vec (map val q)) = Val d /\ 0 <= d /\
    Rabs (val (probsymmetric_float np_sum epsilon p q) - d) <= INR (length p + 6) * pow2 (-52) * d + INR (length p) * pow2 (-1001).
Proof using Ue Le.
  intros A E L N Up Uq. pose proof ulp1_bounds as (u0 & u1). assert (H0 : 0 < pow2 (-1003)) by apply bpow_gt_0.
  destruct (term_sum2 np_sum _ _ (9 * ulp1) (pow2 (-1003)) p q A psd_term Up Uq L N ltac:(lra) ltac:(lra)) as (F & B & C).
  destruct (terms_close2 _ _ _ _ p q psd_term Up Uq L) as (_ & _ & S0 & _).
  unfold probsymmetric_float. set (v := np_sum _) in *.
  destruct (double_exact v F) as (F2 & V2).
  { rewrite Rabs_pos_eq by lra. apply Rle_trans with (2 * INR (length p)); [lra|]. apply Rle_trans with (2 * pow2 49).
    - apply Rmult_le_compat_l; [lra|]. rewrite INR_IZR_INZ. change (pow2 49) with (IZR (2 ^ 49)). apply IZR_le, N.
    - change 2 with (pow2 1). rewrite <- bpow_plus. apply bpow_le. lia. }
  split; [exact F2|]. rewrite V2. split; [lra|].
  exists (2 * rsum (vmap2 (fun a b => (a - b) ^ 2 / (b + a + val epsilon)) (map val p) (map val q))). split; [|split; [lra|]].
  - unfold probsymmetric. rewrite checked_vec by (first [apply map_val_nonempty, E|rewrite !map_length; exact L]). rewrite osum_terms by assumption. reflexivity.
  - set (S := rsum _) in *. rewrite <- Rmult_minus_distr_l, Rabs_mult, (Rabs_pos_eq 2) by lra.
    assert (H1 : pow2 (-1001) = 4 * pow2 (-1003)) by (change (-1001)%Z with (2 + -1003)%Z; rewrite bpow_plus; reflexivity). rewrite H1, ulp52.
    rewrite plus_INR in *. rewrite mult_INR in C. change (INR 2) with 2 in C. replace (INR 6) with 6 by (cbn; lra).
    assert (0 <= ulp1 * S) by (apply Rmult_le_pos; lra). lra.
Qed.
End Eps.

(** The default epsilon, 1e-20, as a double. *)
Definition eps20 : float := fdiv f1 (of_Z (10 ^ 20)).
Lemma eps20_ok : in_unit eps20 /\ pow2 (-70) <= val eps20.
Proof.
  assert (F : is_finite eps20 = true) by (vm_compute; reflexivity).
  assert (E : B2SF eps20 = SpecFloat.S754_finite false 6646139978924579 (-119)) by (vm_compute; reflexivity).
  assert (V : val eps20 = IZR 6646139978924579 * pow2 (-119)).
  { unfold val. destruct eps20 as [ | | |s mm e H]; try discriminate E. cbn in E. injection E as -> -> ->. reflexivity. }
  split; [split; [exact F|]|]; rewrite V.
  - split; [apply Rmult_le_pos; [lra|apply bpow_ge_0]|]. apply Rle_trans with (pow2 53 * pow2 (-119)); [apply Rmult_le_compat_r; [apply bpow_ge_0|change (pow2 53) with (IZR (2 ^ 53)); apply IZR_le; lia]|].
    rewrite <- bpow_plus. change 1 with (pow2 0). apply bpow_le. lia.
  - apply Rle_trans with (pow2 52 * pow2 (-119)); [rewrite <- bpow_plus; apply bpow_le; lia|]. apply Rmult_le_compat_r; [apply bpow_ge_0|]. change (pow2 52) with (IZR (2 ^ 52)). apply IZR_le. lia.
Qed.
