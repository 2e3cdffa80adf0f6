(** * Bray-Curtis and the probabilistic symmetric distance in double precision: accuracy. *)

From Coq Require Import Reals ZArith List Permutation Lia Lra Bool Psatz.
From Flocq Require Import Core BinarySingleNaN Relative Plus_error.
From Verif Require Import Num Spec L_Num M_Baselines M_Metrics L_Metrics M_Float M_Float2 M_Float3 M_Float4 Spec_Float L_Float L_Float2 L_Float3 L_Float4 L_Float5 L_Float6 L_Float7 L_Float8 L_Float9 L_Float10 L_Float11 L_Float12 L_Float13 L_Float14.
Import ListNotations.
Open Scope R_scope.

Local Notation pow2 := (bpow radix2).

(** Addition has a relative error only. *)
Lemma add_error x y : exists d, Rabs d <= ulp1 /\ nearest (val x + val y) = (val x + val y) * (1 + d).
Proof.
  pose proof ulp1_bounds as (U0 & _).
  destruct (FLT_plus_error_N_ex radix2 (-1074) 53 (fun z => negb (Z.even z)) (val x) (val y) (format_val x) (format_val y)) as (d & Hd & Ed).
  exists d. split; [|exact Ed].
  apply Rle_trans with (1 := Hd). unfold u_ro. change (- (53) + 1)%Z with (-52)%Z.
  assert (B : / 2 * bpow radix2 (-52) = ulp1).
  { unfold ulp1. change (bpow radix2 (-53)) with (bpow radix2 (-1 + -52)). rewrite bpow_plus. reflexivity. }
  rewrite B. apply Rmult_le_reg_r with (1 + ulp1); [lra|]. unfold Rdiv. rewrite Rmult_assoc, Rinv_l by lra. nra.
Qed.

(** As term_close, for terms up to 2. *)
Definition term_close2 (g : float -> float -> float) (t : R -> R -> R) (c h : R) : Prop :=
  forall a b, in_unit a -> in_unit b -> bounded 1 (g a b) /\ 0 <= t (val a) (val b) /\
    Rabs (val (g a b) - t (val a) (val b)) <= c * t (val a) (val b) + h.

Lemma terms_close2 g t c h p q : term_close2 g t c h -> Forall in_unit p -> Forall in_unit q -> length p = length q ->
  Forall (bounded 1) (fmap2 g p q) /\ 0 <= exact_sum (fmap2 g p q) /\ 0 <= rsum (vmap2 t (map val p) (map val q)) /\
  Rabs (exact_sum (fmap2 g p q) - rsum (vmap2 t (map val p) (map val q))) <= c * rsum (vmap2 t (map val p) (map val q)) + INR (length p) * h.
Proof.
  intros T Up. revert q. induction Up as [|a p Ua Up IH]; intros q Uq L.
  - destruct q; [|discriminate L]. cbn. split; [constructor|]. rewrite Rminus_0_r, Rabs_R0. lra.
  - destruct q as [|b q]; [discriminate L|]. inversion Uq as [|b' q' Ub Uq']; subst. injection L as L. destruct (IH q Uq' L) as (U & X & N & C).
    destruct (T a b Ua Ub) as (Ug & Nt & Ct). cbn [map length fmap2]. rewrite S_INR.
    change (vmap2 t (val a :: map val p) (val b :: map val q)) with (t (val a) (val b) :: vmap2 t (map val p) (map val q)).
    change (rsum (t (val a) (val b) :: vmap2 t (map val p) (map val q))) with (t (val a) (val b) + rsum (vmap2 t (map val p) (map val q))).
    change (exact_sum (g a b :: fmap2 g p q)) with (val (g a b) + exact_sum (fmap2 g p q)).
    split; [constructor; assumption|]. pose proof (proj1 (proj2 Ug)). split; [lra|]. split; [lra|]. apply Rabs_le_inv in C, Ct. apply Rabs_le. lra.
Qed.

Lemma term_sum2 np_sum g t c h p q : adds_in_some_order np_sum -> term_close2 g t c h -> Forall in_unit p -> Forall in_unit q -> length p = length q ->
  (Z.of_nat (length p) <= 2 ^ 49)%Z -> 0 <= c <= 16 * ulp1 -> 0 <= h ->
  finite (np_sum (fmap2 g p q)) /\ 0 <= val (np_sum (fmap2 g p q)) <= 2 * INR (length p) /\
  Rabs (val (np_sum (fmap2 g p q)) - rsum (vmap2 t (map val p) (map val q))) <=
    (INR (2 * length p + 2) * ulp1 + c) * rsum (vmap2 t (map val p) (map val q)) + 2 * INR (length p) * h.
Proof.
  intros A T Up Uq L N Hc Hh. destruct (terms_close2 g t c h p q T Up Uq L) as (U & X0 & S0 & C).
  assert (Lg : length (fmap2 g p q) = length p) by (apply L_Float10.fmap2_length, L).
  assert (N' : small (length (fmap2 g p q))) by (unfold small; lia).
  destruct (summed_range_gen 1 ltac:(lia) ltac:(lia) _ _ (A (fmap2 g p q)) U N') as (F & B).
  pose proof (summed_error_gen 1 _ _ ltac:(lia) ltac:(lia) (A (fmap2 g p q)) U N') as D.
  rewrite Lg in B, D. change (pow2 1) with 2 in B. split; [exact F|]. split; [lra|].
  pose proof ulp1_bounds as (u0 & u1). set (k := INR (length p)) in *. assert (k0 : 0 <= k) by apply pos_INR.
  assert (ku : k * ulp1 <= 1/16).
  { apply Rle_trans with (pow2 49 * ulp1).
    - apply Rmult_le_compat_r; [lra|]. unfold k. rewrite INR_IZR_INZ. change (pow2 49) with (IZR (2 ^ 49)). apply IZR_le, N.
    - unfold ulp1. rewrite <- bpow_plus. cbn. lra. }
  pose proof (pow_near (length p) ltac:(fold k; lra)) as Pw. fold k in Pw.
  set (X := exact_sum (fmap2 g p q)) in *. set (S := rsum (vmap2 t (map val p) (map val q))) in *. set (v := val (np_sum (fmap2 g p q))) in *.
  assert (D' : Rabs (v - X) <= 2 * (k * ulp1) * X) by (apply Rle_trans with (1 := D); apply Rmult_le_compat_r; lra).
  rewrite plus_INR, mult_INR. fold k. change (INR 2) with 2.
  assert (ku0 : 0 <= k * ulp1) by (apply Rmult_le_pos; lra). assert (kh : 0 <= k * h) by (apply Rmult_le_pos; lra).
  apply Rabs_le_inv in C. assert (M : 2 * (k * ulp1) * X <= 2 * (k * ulp1) * (S + c * S + k * h)) by (apply Rmult_le_compat_l; lra).
  assert (cS : 0 <= c * S <= 16 * ulp1 * S) by (split; [apply Rmult_le_pos; lra|apply Rmult_le_compat_r; lra]).
  assert (M2 : 2 * (k * ulp1) * (c * S) <= 1/8 * (16 * ulp1 * S)) by (apply Rmult_le_compat; lra).
  assert (M3 : 2 * (k * ulp1) * (k * h) <= 1/8 * (k * h)) by (apply Rmult_le_compat_r; lra).
  apply Rabs_le_inv in D'. apply Rabs_le. lra.
Qed.

Lemma add_unit2 a b : in_unit a -> in_unit b -> bounded 1 (fadd a b) /\ val (fadd a b) = nearest (val a + val b).
Proof.
  intros (Fa & Ba) (Fb & Bb). destruct (fadd_ok a b Fa Fb) as (F & V); [apply big4; rewrite Rabs_pos_eq; lra|]. split; [|exact V].
  split; [exact F|]. rewrite V. change (pow2 1) with 2. split; [apply nearest_ge_format; [apply format_0|lra]|apply nearest_le_format; [apply (format_Z 2); lia|lra]].
Qed.

Lemma add_term : term_close2 fadd Rplus ulp1 0.
Proof.
  intros a b Ua Ub. destruct (add_unit2 a b Ua Ub) as (B & V). split; [exact B|]. destruct Ua as (Fa & Ba), Ub as (Fb & Bb). split; [lra|].
  rewrite V. destruct (add_error a b) as (d & Hd & Ed). rewrite Ed.
  replace ((val a + val b) * (1 + d) - (val a + val b)) with ((val a + val b) * d) by ring.
  rewrite Rabs_mult, (Rabs_pos_eq (val a + val b)) by lra. rewrite Rplus_0_r, Rmult_comm. apply Rmult_le_compat_r; lra.
Qed.

(** Dividing two numbers known with relative errors. *)
Lemma ratio_error n n' m m' al h be : 0 <= n -> 0 < m -> 0 <= al -> 0 <= h -> 0 <= be <= 1/2 ->
  Rabs (n' - n) <= al * n + h -> Rabs (m' - m) <= be * m ->
  0 < m' /\ Rabs (n' / m' - n / m) <= (al + be) / (1 - be) * (n / m) + h / ((1 - be) * m).
Proof.
  intros N M Al H Be E1 E2. apply Rabs_le_inv in E2. assert (M' : (1 - be) * m <= m') by lra. assert (P : 0 < (1 - be) * m) by (apply Rmult_lt_0_compat; lra).
  split; [lra|]. set (r := n / m). assert (R0 : 0 <= r) by (apply Rdiv_le_0_compat; lra). assert (En : n = r * m) by (unfold r; field; lra).
  replace (n' / m' - r) with ((n' - r * m') / m') by (field; lra). unfold Rdiv at 1. rewrite Rabs_mult, (Rabs_pos_eq (/ m')) by (left; apply Rinv_0_lt_compat; lra).
  assert (Q : Rabs (n' - r * m') <= (al + be) * n + h).
  { apply Rabs_le_inv in E1. assert (r * (m' - m) <= r * (be * m) /\ r * (- (be * m)) <= r * (m' - m)) by (split; apply Rmult_le_compat_l; lra).
    apply Rabs_le. rewrite En in *. nra. }
  apply Rmult_le_reg_r with m'; [lra|]. rewrite Rmult_assoc, Rinv_l, Rmult_1_r by lra. apply Rle_trans with (1 := Q).
  replace ((al + be) * n + h) with (((al + be) / (1 - be) * r + h / ((1 - be) * m)) * ((1 - be) * m)) by (rewrite En; field; lra).
  apply Rmult_le_compat_l; [|exact M'].
  apply Rplus_le_le_0_compat; [apply Rmult_le_pos; [apply Rdiv_le_0_compat; lra|exact R0]|apply Rdiv_le_0_compat; lra].
Qed.

Lemma abs_term2 : term_close2 (fun a b => fabs (fsub a b)) (fun a b => Rabs (a - b)) ulp1 0.
Proof.
  intros a b Ua Ub. destruct (abs_term a b Ua Ub) as ((F & B) & R). split; [|exact R]. split; [exact F|]. change (pow2 1) with 2. lra.
Qed.

Lemma abs_le_sum p q : Forall in_unit p -> Forall in_unit q -> length p = length q ->
  rsum (vmap2 (fun a b => Rabs (a - b)) (map val p) (map val q)) <= rsum (vmap2 Rplus (map val p) (map val q)).
Proof.
  intros Up. revert q. induction Up as [|a p (Fa & Ba) Up IH]; intros q Uq L.
  - destruct q; [|discriminate L]. apply Rle_refl.
  - destruct q as [|b q]; [discriminate L|]. inversion Uq as [|b' q' (Fb & Bb) Uq']; subst. injection L as L. specialize (IH q Uq' L). cbn [map].
    change (Rabs (val a - val b) + rsum (vmap2 (fun a b => Rabs (a - b)) (map val p) (map val q)) <= val a + val b + rsum (vmap2 Rplus (map val p) (map val q))).
    assert (Rabs (val a - val b) <= val a + val b) by (apply Rabs_le; lra). lra.
Qed.

Lemma bray_curtis_accuracy np_sum p q d : adds_in_some_order np_sum -> length p = length q -> (Z.of_nat (length p) <= 2 ^ 48)%Z ->
  Forall in_unit p -> Forall in_unit q -> p <> [] -> bray_curtis (vec (map val p)) (vec (map val q)) = Val d ->
  finite (bray_curtis_float np_sum p q) /\ 0 <= d <= 1 /\ 0 <= val (bray_curtis_float np_sum p q) /\
    Rabs (val (bray_curtis_float np_sum p q) - d) <= INR (3 * length p + 5) * pow2 (-52) * d + pow2 (-1075).
Proof.
  intros A L N Up Uq E Bd. pose proof ulp1_bounds as (u0 & u1).
  assert (N49 : (Z.of_nat (length p) <= 2 ^ 49)%Z) by lia.
  destruct (term_sum2 np_sum _ _ ulp1 0 p q A abs_term2 Up Uq L N49 ltac:(lra) ltac:(lra)) as (Fn & Bn & Cn).
  destruct (term_sum2 np_sum _ _ ulp1 0 p q A add_term Up Uq L N49 ltac:(lra) ltac:(lra)) as (Fm & Bm & Cm).
  destruct (terms_close2 _ _ _ _ p q abs_term2 Up Uq L) as (_ & _ & Sn & _).
  destruct (terms_close2 _ _ _ _ p q add_term Up Uq L) as (_ & _ & Sm & _). pose proof (abs_le_sum p q Up Uq L) as Le.
  unfold bray_curtis in Bd. rewrite checked_vec in Bd by (first [apply map_val_nonempty, E|rewrite !map_length; exact L]).
  set (n := rsum (vmap2 (fun a b => Rabs (a - b)) (map val p) (map val q))) in *. set (m := rsum (vmap2 Rplus (map val p) (map val q))) in *.
  unfold odiv in Bd. destruct (Req_EM_T m 0) as [Z|Z]; [discriminate Bd|]. injection Bd as <-. assert (m0 : 0 < m) by lra.
  unfold bray_curtis_float. set (fn := np_sum (fmap2 (fun a b => fabs (fsub a b)) p q)) in *. set (fm := np_sum (fmap2 fadd p q)) in *.
  rewrite plus_INR, mult_INR in *. set (k := INR (length p)) in *. change (INR 2) with 2 in *. assert (k0 : 0 <= k) by apply pos_INR.
  replace (INR 3) with 3 by (cbn; lra). replace (INR 5) with 5 by (cbn; lra).
  assert (ku : k * ulp1 <= 1/32).
  { apply Rle_trans with (pow2 48 * ulp1).
    - apply Rmult_le_compat_r; [lra|]. unfold k. rewrite INR_IZR_INZ. change (pow2 48) with (IZR (2 ^ 48)). apply IZR_le, N.
    - unfold ulp1. rewrite <- bpow_plus. cbn. lra. }
  assert (ku0 : 0 <= k * ulp1) by (apply Rmult_le_pos; lra).
  set (al := (2 * k + 2) * ulp1 + ulp1) in *. assert (Al : 0 <= al <= 1/15) by (unfold al; lra).
  destruct (ratio_error n (val fn) m (val fm) al 0 al Sn m0 (proj1 Al) (Rle_refl 0) ltac:(lra)) as (P & Q).
  { apply Rle_trans with (1 := Cn). lra. } { apply Rle_trans with (1 := Cm). lra. }
  set (r := n / m) in *. assert (R0 : 0 <= r <= 1).
  { split; [apply Rdiv_le_0_compat; lra|]. unfold r. apply Rmult_le_reg_r with m; [exact m0|]. unfold Rdiv. rewrite Rmult_assoc, Rinv_l by lra. lra. }
  assert (Q' : Rabs (val fn / val fm - r) <= 15/7 * al * r).
  { apply Rle_trans with (1 := Q). replace (0 / ((1 - al) * m)) with 0 by (field; lra). rewrite Rplus_0_r. apply Rmult_le_compat_r; [lra|].
    apply Rmult_le_reg_r with (1 - al); [lra|]. unfold Rdiv. rewrite Rmult_assoc, Rinv_l by lra. nra. }
  assert (T0 : 0 <= val fn / val fm) by (apply Rdiv_le_0_compat; lra).
  assert (Ar : 0 <= al * r <= 1/15) by (split; [apply Rmult_le_pos; lra|]; apply Rle_trans with (1/15 * 1); [apply Rmult_le_compat; lra|lra]).
  apply Rabs_le_inv in Q'.
  destruct (fdiv_ok fn fm Fn ltac:(lra)) as (F & V); [apply big4; rewrite Rabs_pos_eq; lra|].
  split; [exact F|]. split; [lra|]. rewrite V. split; [apply nearest_ge_format; [apply format_0|exact T0]|].
  pose proof (nearest_mixed (val fn / val fm)) as M. rewrite (Rabs_pos_eq _ T0) in M. apply Rabs_le_inv in M.
  assert (K : ulp1 * (val fn / val fm) <= ulp1 * (2 * r)).
  { apply Rmult_le_compat_l; [lra|]. assert (15/7 * al * r <= 1 * r) by (apply Rmult_le_compat_r; lra). lra. }
  rewrite ulp52. replace (15/7 * al * r) with (15/7 * (2 * (k * ulp1 * r) + 3 * (ulp1 * r))) in Q' by (unfold al; ring).
  assert (0 <= k * ulp1 * r) by (apply Rmult_le_pos; lra). assert (0 <= ulp1 * r) by (apply Rmult_le_pos; lra).
  apply Rabs_le. lra.
Qed.

(** When every prevalence is 0 the answer is NaN, as in exact arithmetic. *)
Lemma bray_curtis_zeros np_sum p q : adds_in_some_order np_sum -> length p = length q -> (Z.of_nat (length p) <= 2 ^ 48)%Z ->
  Forall in_unit p -> Forall in_unit q -> p <> [] -> (bray_curtis (vec (map val p)) (vec (map val q)) = NotANumber <-> is_nan (bray_curtis_float np_sum p q) = true).
Proof.
  intros A L N48 Up Uq E. assert (N : (Z.of_nat (length p) <= 2 ^ 49)%Z) by lia. pose proof ulp1_bounds as (u0 & u1).
  destruct (term_sum2 np_sum _ _ ulp1 0 p q A abs_term2 Up Uq L N ltac:(lra) ltac:(lra)) as (Fn & Bn & Cn).
  destruct (term_sum2 np_sum _ _ ulp1 0 p q A add_term Up Uq L N ltac:(lra) ltac:(lra)) as (Fm & Bm & Cm).
  destruct (terms_close2 _ _ _ _ p q abs_term2 Up Uq L) as (_ & _ & Sn & _).
  destruct (terms_close2 _ _ _ _ p q add_term Up Uq L) as (_ & _ & Sm & _). pose proof (abs_le_sum p q Up Uq L) as Le.
  unfold bray_curtis. rewrite checked_vec by (first [apply map_val_nonempty, E|rewrite !map_length; exact L]).
  set (n := rsum (vmap2 (fun a b => Rabs (a - b)) (map val p) (map val q))) in *. set (m := rsum (vmap2 Rplus (map val p) (map val q))) in *.
  unfold bray_curtis_float. set (fn := np_sum (fmap2 (fun a b => fabs (fsub a b)) p q)) in *. set (fm := np_sum (fmap2 fadd p q)) in *.
  assert (ku : INR (2 * length p + 2) * ulp1 + ulp1 < 1).
  { rewrite plus_INR, mult_INR. change (INR 2) with 2. assert (INR (length p) * ulp1 <= 1/16); [|lra]. apply Rle_trans with (pow2 49 * ulp1).
    - apply Rmult_le_compat_r; [lra|]. rewrite INR_IZR_INZ. change (pow2 49) with (IZR (2 ^ 49)). apply IZR_le, N.
    - unfold ulp1. rewrite <- bpow_plus. cbn. lra. }
  set (al := INR (2 * length p + 2) * ulp1 + ulp1) in *. rewrite Rmult_0_r, Rplus_0_r in Cn, Cm.
  unfold odiv. destruct (Req_EM_T m 0) as [Z|Z].
  - split; [intros _|reflexivity].
    assert (Zn : n = 0) by lra. rewrite Zn, Rmult_0_r, Rminus_0_r in Cn. rewrite Z, Rmult_0_r, Rminus_0_r in Cm.
    assert (Vn : val fn = 0) by (apply Rabs_le_inv in Cn; lra). assert (Vm : val fm = 0) by (apply Rabs_le_inv in Cm; lra).
    clear - Fn Fm Vn Vm. unfold finite, val in *. destruct fn as [s| | |s mm e H]; try discriminate Fn; [|cbn in Vn; apply eq_0_F2R in Vn; destruct s; discriminate Vn].
    destruct fm as [s'| | |s' mm' e' H']; try discriminate Fm; [|cbn in Vm; apply eq_0_F2R in Vm; destruct s'; discriminate Vm]. reflexivity.
  - split; [discriminate|]. intros H. exfalso.
    destruct (bray_curtis_accuracy np_sum p q (n / m) A L N48 Up Uq E) as (F & _).
    { unfold bray_curtis. rewrite checked_vec by (first [apply map_val_nonempty, E|rewrite !map_length; exact L]). unfold odiv. fold n m. destruct (Req_EM_T m 0); [contradiction|reflexivity]. }
    unfold bray_curtis_float in F. fold fn fm in F. revert F H. unfold finite. generalize (fdiv fn fm). intros z F H. destruct z; discriminate.
Qed.
