(** * C118, C119: searching for the prevalence with doubles. *)

From Coq Require Import Reals ZArith List Bool Sorted Lia Lra.
From Flocq Require Import Core BinarySingleNaN.
From Verif Require Import Num Spec M_Search M_Float M_Float2 M_Float5 Spec_Float Spec_Float2 L_Float L_Float2 L_Float4 L_Float5 L_Float6 L_Float8 L_Float14 L_Float18 L_Float19 L_Float20 L_Float21.
Import ListNotations.
Open Scope R_scope.

(** ** C118 *)

(** Golden section search on [a, b], whatever the loss does (NaN and exceptions included): unless the loss raises at one of the
    two first points, the result is a pair of prevalences in [0, 1] that add up to exactly 1, the second one in [a, b], and a
    loss that was found at a point of [a, b]. *)
Theorem C118_golden_valid : forall a b, in_unit a -> in_unit b ->
  forall n, bpow radix2 (-40) <= golden_ratio ^ n * (val b - val a) -> forall f,
  (golden_float f n a b = None /\ exists z, between a b z /\ f z = None) \/
  (exists loss p z, golden_float f n a b = Some (loss, [fsub f1 p; p]) /\ complementary (fsub f1 p) p /\ between a b p /\
     between a b z /\ f z = Some loss).
Proof. exact golden_range. Qed.
Print Assumptions C118_golden_valid.

(** With one minimum, the result is as far from it as in exact arithmetic, up to 2^-43. *)
Theorem C118_golden_minimum : forall a b, in_unit a -> in_unit b ->
  forall n, bpow radix2 (-40) <= golden_ratio ^ n * (val b - val a) ->
  forall f m, unimodal_doubles (golden_ratio ^ n * (val b - val a) / 16) f a b m ->
  exists loss p, golden_float f n a b = Some (loss, [fsub f1 p; p]) /\
    Rabs (val p - m) <= golden_ratio ^ n * (val b - val a) / 2 + bpow radix2 (-43).
Proof. exact golden_minimum. Qed.
Print Assumptions C118_golden_minimum.

(** Hypotheses: the loss |p - 0.25| on [0, 1], with 20 steps. *)
Example C118_hypotheses :
  let f := fun x => Some (fabs (fsub x (ratio 1 4))) in
  in_unit f0 /\ in_unit f1 /\ bpow radix2 (-40) <= golden_ratio ^ 20 * (val f1 - val f0) /\
  unimodal_doubles (golden_ratio ^ 20 * (val f1 - val f0) / 16) f f0 f1 (1/4) /\ not_too_many (fun _ _ => 20%nat).
Proof.
  cbv zeta. destruct f0_ok as (F0 & V0), f1_ok as (F1 & V1). rewrite V0, V1. pose proof phi_facts as (P & _). change golden_ratio with invphi.
  assert (B : 1/100000 <= invphi ^ 20).
  { apply Rle_trans with (0.618 ^ 20); [|apply pow_incr; lra]. lra. }
  assert (B1 : invphi ^ 20 <= 1) by (apply (pow_small 20)).
  assert (Q : bpow radix2 (-40) <= / 1000000000000) by (change (bpow radix2 (-40)) with (/ 1099511627776); lra).
  split; [split; [exact F0|lra]|]. split; [split; [exact F1|lra]|]. split; [lra|]. split.
  - assert (R4 : in_unit (ratio 1 4) /\ val (ratio 1 4) = 1/4).
    { destruct (ratio_unit 1 4 ltac:(lia) ltac:(lia)) as (Ur & Vr). split; [exact Ur|]. rewrite Vr. apply nearest_id.
      replace (1 / 4) with (1 * bpow radix2 (-2)) by (change (bpow radix2 (-2)) with (/ 4); lra). apply (format_scaled 1 (-2)); lia. }
    destruct R4 as (Ur & Vr).
    assert (G : forall x, between f0 f1 x -> finite (fabs (fsub x (ratio 1 4))) /\ Rabs (val (fabs (fsub x (ratio 1 4))) - Rabs (val x - 1/4)) <= 2 * ulp1).
    { intros x (Fx & Bx). rewrite V0, V1 in Bx. destruct (sub_unit x (ratio 1 4) (conj Fx Bx) Ur) as (Fs & Vs). destruct (fabs_ok _ Fs) as (Fa & Va).
      split; [exact Fa|]. rewrite Va, Vs, Vr. apply Rle_trans with (1 := Rabs_triang_inv2 _ _).
      apply Rle_trans with (1 := nearest_abs (val x - 1/4) 1 ltac:(apply Rabs_le; lra)). pose proof tiny. lra. }
    split; [rewrite V0, V1; lra|]. split.
    + intros x Bx. eexists. split; [reflexivity|]. apply (G x Bx).
    + intros x y u v Bx By D Eu Ev. injection Eu as <-. injection Ev as <-. destruct (G x Bx) as (_ & Gx). destruct (G y By) as (_ & Gy).
      assert (U4 : 4 * ulp1 < 1/10000000).
      { apply Rle_lt_trans with (bpow radix2 (-50)).
        - replace (bpow radix2 (-50)) with (8 * ulp1); [pose proof ulp1_bounds; lra|]. change 8 with (bpow radix2 3). unfold ulp1. rewrite <- bpow_plus. reflexivity.
        - change (bpow radix2 (-50)) with (/ 1125899906842624). lra. }
      apply Rabs_le_inv in Gx, Gy. split; intros L.
      * rewrite (Rabs_left1 (val x - 1/4)), (Rabs_left1 (val y - 1/4)) in * by lra. lra.
      * rewrite (Rabs_pos_eq (val x - 1/4)), (Rabs_pos_eq (val y - 1/4)) in * by lra. lra.
  - intros a b _ _ W. change golden_ratio with invphi. apply Rle_trans with (1/100000 * (1/64)); [lra|]. apply Rmult_le_compat; lra.
Qed.

(** global_search: an exception, the number 2, or a pair of prevalences, whatever the losses. *)
Theorem C118_global_valid : forall f steps losses, not_too_many steps ->
  global_float f steps losses = Raised \/ global_float f steps losses = Two \/
  exists p, global_float f steps losses = Pair [fsub f1 p; p] /\ complementary (fsub f1 p) p.
Proof. exact global_range. Qed.
Print Assumptions C118_global_valid.

(** With finite losses it is never 2.  The result comes from the searched interval with the smallest loss, an interval being searched
    around every point of the grid where the loss rises on both sides; if there is none, from one of the ends. *)
Theorem C118_global_where : forall f, (forall x, in_unit x -> exists u, f x = Some u /\ finite u) ->
  forall steps, not_too_many steps -> forall losses,
  let rises := fun i => flt (losses (i - 1)%nat) (losses i) = true /\ flt (losses i) (losses (i + 1)%nat) = true in
  let low := fun i => grid_float (i - 2) in
  let high := fun i => grid_float (Nat.min (i + 2) 100) in
  let searched := fun i => golden_float f (steps (low i) (high i)) (low i) (high i) in
  (exists i loss p, (1 <= i <= 99)%nat /\ rises i /\ global_float f steps losses = Pair [fsub f1 p; p] /\ complementary (fsub f1 p) p /\
     searched i = Some (loss, [fsub f1 p; p]) /\ between (low i) (high i) p /\
     forall j, (1 <= j <= 99)%nat -> rises j -> exists l q, searched j = Some (l, q) /\ val loss <= val l) \/
  ((forall i, (1 <= i <= 99)%nat -> ~ rises i) /\
   ((Beqb (losses 0%nat) (losses 100%nat) = true /\ global_float f steps losses = Raised) \/
    (Beqb (losses 0%nat) (losses 100%nat) = false /\ exists p, global_float f steps losses = Pair [fsub f1 p; p] /\ complementary (fsub f1 p) p /\
       (flt (losses 0%nat) (losses 100%nat) = true -> val p <= val (grid_float 2)) /\
       (flt (losses 0%nat) (losses 100%nat) = false -> val (grid_float 98) <= val p)))).
Proof. exact global_where. Qed.
Print Assumptions C118_global_where.

(** With losses that are infinite between the points of the grid the result is the number 2. *)
Theorem C118_global_two_refuted : exists f losses, (forall i, (i <= 100)%nat -> f (grid_float i) = Some (losses i) /\ in_unit (losses i)) /\
  global_float f (fun _ _ => 1%nat) losses = Two.
Proof. exact global_two_refuted. Qed.
Print Assumptions C118_global_two_refuted.

(** ** C119 *)

(** A mixture of two distributions given by numbers in [0, 1] is in [0, 1], close to the exact one, and its total is 1 if theirs is. *)
Theorem C119_mixture : forall p pos neg, in_unit p -> length pos = length neg -> Forall in_unit pos -> Forall in_unit neg ->
  Forall in_unit (mixture_float p pos neg) /\
  within (bpow radix2 (-51)) (mixture_float p pos neg) (mixture_of_pdfs (val p) (map val pos) (map val neg)) /\
  (forall e, Rabs (exact_sum pos - 1) <= e -> Rabs (exact_sum neg - 1) <= e ->
     Rabs (exact_sum (mixture_float p pos neg) - 1) <= e + INR (length pos) * bpow radix2 (-51)).
Proof.
  exact (fun p pos neg Up L Uo Un => conj (mixture_unit p pos neg Up Uo Un)
    (conj (mixture_within p pos neg Up L Uo Un) (fun e => mixture_sum p pos neg e Up L Uo Un))).
Qed.
Print Assumptions C119_mixture.

(** At 0 and at 1 it is exactly the negative and the positive distribution. *)
Theorem C119_ends : forall pos neg, length pos = length neg -> Forall in_unit pos -> Forall in_unit neg ->
  map val (mixture_float f0 pos neg) = map val neg /\ map val (mixture_float f1 pos neg) = map val pos.
Proof. exact mixture_ends. Qed.
Print Assumptions C119_ends.

(** Cumulative distributions give a cumulative distribution: rounding does not disturb the order. *)
Theorem C119_cumulative : forall p pos neg, in_unit p -> length pos = length neg -> Forall in_unit pos -> Forall in_unit neg ->
  Sorted Rle (map val pos) -> Sorted Rle (map val neg) -> Sorted Rle (map val (mixture_float p pos neg)).
Proof. exact mixture_sorted. Qed.
Print Assumptions C119_cumulative.

(** But mixing a distribution with itself can change it. *)
Theorem C119_same_refuted : exists p x, in_unit p /\ in_unit x /\ val (mix_float p x x) <> val x.
Proof. exact mix_same_refuted. Qed.
Print Assumptions C119_same_refuted.

Example C119_hypotheses : in_unit (ratio 3 10) /\ Forall in_unit [ratio 1 10; ratio 6 10; ratio 1 1] /\ Forall in_unit [ratio 5 10; ratio 7 10; ratio 1 1] /\
  Sorted Rle (map val [ratio 1 10; ratio 6 10; ratio 1 1]) /\ Sorted Rle (map val [ratio 5 10; ratio 7 10; ratio 1 1]).
Proof.
  split; [apply ratio_unit; lia|]. split; [repeat (apply Forall_cons; [apply ratio_unit; lia|]); constructor|].
  split; [repeat (apply Forall_cons; [apply ratio_unit; lia|]); constructor|].
  split; cbn [map]; (apply Sorted_cons; [apply Sorted_cons; [apply Sorted_cons; constructor|]|]); try (apply HdRel_nil); apply HdRel_cons, Rlt_le, flt_val; vm_compute; reflexivity.
Qed.
