(** * Earth mover's distances in double precision: accuracy. *)

From Coq Require Import Reals ZArith List Permutation Lia Lra Bool Psatz.
From Flocq Require Import Core BinarySingleNaN Relative Plus_error.
From Verif Require Import Num Spec L_Num M_Baselines M_Metrics L_Metrics M_Float M_Float2 M_Float3 M_Float4 M_Float6 Spec_Float L_Float L_Float2 L_Float3 L_Float4 L_Float5 L_Float6 L_Float7 L_Float8 L_Float9 L_Float10 L_Float11 L_Float12 L_Float13 L_Float14 L_Float15 L_Float16 L_Float22.
Import ListNotations.
Open Scope R_scope.

Local Notation pow2 := (bpow radix2).

Lemma small_error n : (Z.of_nat n <= 2 ^ 40)%Z -> INR n * ulp1 <= 1/8192.
Proof.
  intros N. pose proof ulp1_bounds. apply Rle_trans with (pow2 40 * ulp1).
  - apply Rmult_le_compat_r; [lra|]. rewrite INR_IZR_INZ. change (pow2 40) with (IZR (2 ^ 40)). apply IZR_le, N.
  - unfold ulp1. rewrite <- bpow_plus. cbn. lra.
Qed.

(** One more term: [x] approximates [A], [y] approximates [B] and the exact sum is small. *)
Lemma add_close x y A B e f M : finite x -> finite y -> Rabs (val x - A) <= e -> Rabs (val y - B) <= f -> 0 <= e -> 0 <= f -> Rabs (A + B) <= M -> M <= 4 -> e + f <= 1 ->
  finite (fadd x y) /\ Rabs (val (fadd x y) - (A + B)) <= e + f + ulp1 * (M + 1).
Proof.
  intros Fx Fy Hx Hy e0 f0 HM M4 ef. apply Rabs_le_inv in Hx, Hy, HM.
  destruct (fadd_ok x y Fx Fy) as (F & V); [apply big, Rabs_le; assert (IZR (2 ^ 60) >= 100) by (apply Rle_ge, IZR_le; lia); lra|].
  split; [exact F|]. destruct (L_Float4.add_error x y) as (d & Hd & Ed). rewrite V, Ed. pose proof ulp1_bounds.
  replace ((val x + val y) * (1 + d) - (A + B)) with ((val x - A) + (val y - B) + (val x + val y) * d) by ring.
  assert (T : Rabs ((val x + val y) * d) <= (M + 1) * ulp1).
  { rewrite Rabs_mult. apply Rmult_le_compat; try apply Rabs_pos; [apply Rabs_le; lra|exact Hd]. }
  apply Rabs_le_inv in T. apply Rabs_le. lra.
Qed.

Definition near (e M : R) (x : float) (r : R) : Prop := finite x /\ Rabs (val x - r) <= e /\ Rabs r <= M.

Lemma near_weaken e e' M x r : e <= e' -> near e M x r -> near e' M x r.
Proof. intros H (F & E & B). split; [exact F|]. split; [lra|exact B]. Qed.

Lemma total_nonneg p : Forall in_unit p -> 0 <= exact_sum p.
Proof. unfold exact_sum. induction 1 as [|x l (F & B) _ IH]; cbn; lra. Qed.

(** Partial sums of the differences of two vectors that add up to at most 2. *)
Lemma diff_cumsum_from p : Forall in_unit p -> forall q, Forall in_unit q -> length p = length q ->
  forall k x P Q, 0 <= P -> 0 <= Q -> P + exact_sum p <= 2 -> Q + exact_sum q <= 2 -> (Z.of_nat (k + length p) <= 2 ^ 40)%Z ->
  finite x -> Rabs (val x - (P - Q)) <= INR k * (4 * ulp1) ->
  Forall2 (near (INR (k + length p) * (4 * ulp1)) 2) (fcumsum_from x (fmap2 fsub p q)) (cumsum_from (P - Q) (vmap2 Rminus (map val p) (map val q))).
Proof.
  induction 1 as [|a p Ua Up IH]; intros q Uq L k x P Q P0 Q0 HP HQ N F E; destruct q as [|b q]; try discriminate L; cbn -[ulp1]; [constructor|].
  inversion_clear Uq as [|? ? Ub Uq']. cbn [length] in *. unfold exact_sum in HP, HQ. cbn in HP, HQ. fold (exact_sum p) in HP. fold (exact_sum q) in HQ.
  pose proof (total_nonneg p Up). pose proof (total_nonneg q Uq'). pose proof ulp1_bounds as (u0 & u1).
  destruct (sub_unit a b Ua Ub) as (Fd & Vd). destruct Ua as (Fa & Ba), Ub as (Fb & Bb).
  assert (Ed : Rabs (val (fsub a b) - (val a - val b)) <= ulp1).
  { rewrite Vd. destruct (sub_error a b) as (d & Hd & ->). replace ((val a - val b) * (1 + d) - (val a - val b)) with ((val a - val b) * d) by ring.
    rewrite Rabs_mult, <- (Rmult_1_l ulp1). apply Rmult_le_compat; try apply Rabs_pos; [apply Rabs_le; lra|exact Hd]. }
  pose proof (small_error k ltac:(lia)) as Sk. pose proof (pos_INR k) as k0.
  assert (ku : 0 <= INR k * ulp1) by (apply Rmult_le_pos; lra).
  destruct (add_close x (fsub a b) (P - Q) (val a - val b) _ ulp1 2 F Fd E Ed) as (F' & E'); try lra.
  { apply Rabs_le. lra. }
  assert (E2 : Rabs (val (fadd x (fsub a b)) - (P - Q + (val a - val b))) <= INR (S k) * (4 * ulp1)) by (rewrite S_INR; lra).
  replace (k + S (length p))%nat with (S k + length p)%nat by lia.
  constructor.
  - split; [exact F'|]. split; [|apply Rabs_le; lra]. apply Rle_trans with (1 := E2). apply Rmult_le_compat_r; [lra|]. apply le_INR. lia.
  - replace (P - Q + (val a - val b)) with ((P + val a) - (Q + val b)) in * by ring. apply IH; auto; try lra. lia.
Qed.

Lemma diff_cumsum p q : Forall in_unit p -> Forall in_unit q -> length p = length q -> exact_sum p <= 2 -> exact_sum q <= 2 -> (Z.of_nat (length p) <= 2 ^ 40)%Z ->
  Forall2 (near (INR (length p) * (4 * ulp1)) 2) (fcumsum (fmap2 fsub p q)) (cumsum (vmap2 Rminus (map val p) (map val q))).
Proof.
  intros Up Uq L HP HQ N. destruct Up as [|a p Ua Up]; destruct q as [|b q]; try discriminate L; cbn -[ulp1]; [constructor|].
  inversion_clear Uq as [|? ? Ub Uq']. unfold exact_sum in HP, HQ. cbn in HP, HQ. fold (exact_sum p) in HP. fold (exact_sum q) in HQ.
  pose proof (total_nonneg p Up). pose proof (total_nonneg q Uq'). pose proof ulp1_bounds as (u0 & u1).
  destruct (sub_unit a b Ua Ub) as (Fd & Vd). destruct Ua as (Fa & Ba), Ub as (Fb & Bb).
  assert (Ed : Rabs (val (fsub a b) - (val a - val b)) <= ulp1).
  { rewrite Vd. destruct (sub_error a b) as (d & Hd & ->). replace ((val a - val b) * (1 + d) - (val a - val b)) with ((val a - val b) * d) by ring.
    rewrite Rabs_mult, <- (Rmult_1_l ulp1). apply Rmult_le_compat; try apply Rabs_pos; [apply Rabs_le; lra|exact Hd]. }
  rewrite Rplus_0_l. change (match length p with O => 1 | S _ => INR (length p) + 1 end) with (INR (1 + length p)). constructor.
  - split; [exact Fd|]. split; [|apply Rabs_le; lra]. apply Rle_trans with (1 := Ed). rewrite plus_INR. change (INR 1) with 1. pose proof (pos_INR (length p)).
    assert (0 <= INR (length p) * ulp1) by (apply Rmult_le_pos; lra). lra.
  - apply (diff_cumsum_from p Up q Uq' ltac:(cbn in L; lia) 1); auto; try lra. cbn [INR]. lra.
Qed.

(** Adding up absolute values of numbers that are close to small ones. *)
Lemma abs_sum_close e s l m : 0 <= e <= 1 -> (Z.of_nat (length l) <= 2 ^ 40)%Z -> summed (map fabs l) s -> Forall2 (near e 2) l m ->
  finite s /\ 0 <= val s /\ Rabs (val s - rsum (map Rabs m)) <= INR (length l) * e + 6 * (INR (length l) * (INR (length l) * ulp1)) /\ 0 <= rsum (map Rabs m) <= 2 * INR (length l).
Proof.
  intros e1 N S H. assert (B : Forall (at_most 3) l).
  { clear S N. induction H as [|x r l m (F & E & R) H IH]; constructor; [|exact IH]. split; [exact F|]. apply Rabs_le_inv in E, R. apply Rabs_le. lra. }
  assert (B2 : Forall (bounded 2) (map fabs l)) by (apply (abs_bounded 2 l 3); [cbn; lra|exact B]).
  assert (Sm : small (length (map fabs l))) by (unfold small; rewrite map_length; lia).
  assert (X : Rabs (exact_sum (map fabs l) - rsum (map Rabs m)) <= INR (length l) * e /\ 0 <= rsum (map Rabs m) <= 2 * INR (length l)).
  { clear S N B B2 Sm. induction H as [|x r l m (F & E & R) H IH]; unfold exact_sum, rsum; cbn [map fold_right length]; [cbn; rewrite Rminus_0_r, Rabs_R0; lra|].
    fold (exact_sum (map fabs l)). fold (rsum (map Rabs m)). destruct (fabs_ok x F) as (_ & V). rewrite V, S_INR. destruct IH as (IH & IH2). pose proof (Rabs_pos r).
    pose proof (Rabs_triang_inv2 (val x) r). apply Rabs_le_inv in IH. assert (T : Rabs (Rabs (val x) - Rabs r) <= e) by lra. apply Rabs_le_inv in T. split; [apply Rabs_le; lra|lra]. }
  destruct X as (X & R). destruct (summed_range_gen 2 ltac:(lia) ltac:(lia) _ _ S B2 Sm) as (F & V). split; [exact F|]. split; [apply V|]. split; [|exact R].
  pose proof (summed_error_gen 2 _ _ ltac:(lia) ltac:(lia) S B2 Sm) as D. rewrite map_length in D. pose proof ulp1_bounds as (u0 & u1).
  pose proof (small_error _ N) as Su. pose proof (pow_near (length l) ltac:(lra)) as Pw. set (n := INR (length l)) in *. pose proof (pos_INR (length l)) as n0. fold n in n0.
  set (Y := exact_sum (map fabs l)) in *. assert (Y0 : 0 <= Y) by apply (bounded_sum _ _ B2).
  assert (D' : Rabs (val s - Y) <= 2 * (n * ulp1) * Y) by (apply Rle_trans with (1 := D); apply Rmult_le_compat_r; lra).
  assert (Yn : Y <= 3 * n) by (apply Rabs_le_inv in X; assert (n * e <= n * 1) by (apply Rmult_le_compat_l; lra); lra).
  assert (nu : 0 <= n * ulp1) by (apply Rmult_le_pos; lra).
  assert (D2 : 2 * (n * ulp1) * Y <= 2 * (n * ulp1) * (3 * n)) by (apply Rmult_le_compat_l; lra).
  apply Rabs_le_inv in D', X. apply Rabs_le. lra.
Qed.

Lemma emd_exact p q : length p = length q -> p <> [] -> emd (vec p) (vec q) = Val (rsum (map Rabs (cumsum (vmap2 Rminus p q)))).
Proof. intros L N. unfold emd. rewrite checked_vec by auto. reflexivity. Qed.

Lemma emd_accuracy np_sum p q : adds_in_some_order np_sum -> p <> [] -> length p = length q -> (Z.of_nat (length p) <= 2 ^ 40)%Z ->
  Forall in_unit p -> Forall in_unit q -> exact_sum p <= 2 -> exact_sum q <= 2 ->
  finite (emd_float np_sum p q) /\ 0 <= val (emd_float np_sum p q) /\
  exists d, emd (vec (map val p)) (vec (map val q)) = Val d /\ 0 <= d <= 2 * INR (length p) /\
    Rabs (val (emd_float np_sum p q) - d) <= 5 * INR (length p) ^ 2 * pow2 (-52).
Proof.
  intros A E L N Up Uq HP HQ. pose proof (diff_cumsum p q Up Uq L HP HQ N) as H. pose proof (small_error _ N) as Su. pose proof (pos_INR (length p)). pose proof ulp1_bounds as (u0 & u1).
  assert (nu : 0 <= INR (length p) * ulp1) by (apply Rmult_le_pos; lra).
  assert (Ll : length (fcumsum (fmap2 fsub p q)) = length p) by (rewrite fcumsum_length; apply fmap2_length, L).
  destruct (abs_sum_close (INR (length p) * (4 * ulp1)) _ _ _ ltac:(lra) ltac:(rewrite Ll; exact N) (A (map fabs (fcumsum (fmap2 fsub p q)))) H) as (F & V & C & R).
  rewrite Ll in C, R. split; [exact F|]. split; [exact V|]. eexists. split; [apply emd_exact; [rewrite !map_length; exact L|apply map_val_nonempty, E]|].
  split; [exact R|]. apply Rle_trans with (1 := C). rewrite ulp52. right. ring.
Qed.

(** ** emd_distances *)

Lemma cumsum_close p : Forall in_unit p -> forall k x P, 0 <= P -> P + exact_sum p <= 2 -> (Z.of_nat (k + length p) <= 2 ^ 40)%Z ->
  finite x -> Rabs (val x - P) <= INR k * (3 * ulp1) ->
  Forall2 (fun y r => near (INR (k + length p) * (3 * ulp1)) 2 y r /\ 0 <= r) (fcumsum_from x p) (cumsum_from P (map val p)).
Proof.
  induction 1 as [|a p Ua Up IH]; intros k x P P0 HP N F E; cbn -[ulp1]; [constructor|]. cbn [length] in *.
  unfold exact_sum in HP. cbn in HP. fold (exact_sum p) in HP. pose proof (total_nonneg p Up). pose proof ulp1_bounds as (u0 & u1). destruct Ua as (Fa & Ba).
  pose proof (small_error k ltac:(lia)) as Sk. pose proof (pos_INR k) as k0. assert (ku : 0 <= INR k * ulp1) by (apply Rmult_le_pos; lra).
  destruct (add_close x a P (val a) _ 0 2 F Fa E) as (F' & E'); try lra.
  { unfold Rminus. rewrite Rplus_opp_r, Rabs_R0. lra. }
  { apply Rabs_le. lra. }
  assert (E2 : Rabs (val (fadd x a) - (P + val a)) <= INR (S k) * (3 * ulp1)) by (rewrite S_INR; lra).
  replace (k + S (length p))%nat with (S k + length p)%nat by lia. constructor.
  - split; [|lra]. split; [exact F'|]. split; [|apply Rabs_le; lra]. apply Rle_trans with (1 := E2). apply Rmult_le_compat_r; [lra|]. apply le_INR. lia.
  - apply IH; auto; try lra. lia.
Qed.

Lemma cumsum_of_close p : Forall in_unit p -> exact_sum p <= 2 -> (Z.of_nat (length p) <= 2 ^ 40)%Z ->
  Forall2 (fun y r => near (INR (length p) * (3 * ulp1)) 2 y r /\ 0 <= r) (fcumsum p) (cumsum (map val p)).
Proof.
  intros [|a p' Ua Up] HP N; cbn -[ulp1]; [constructor|]. unfold exact_sum in HP. cbn in HP. fold (exact_sum p') in HP. pose proof (total_nonneg p' Up). pose proof ulp1_bounds as (u0 & u1).
  destruct Ua as (Fa & Ba). rewrite Rplus_0_l. change (match length p' with O => 1 | S _ => INR (length p') + 1 end) with (INR (1 + length p')). 
  assert (Z0 : forall e, 0 <= e -> Rabs (val a - val a) <= e) by (intros e e0; unfold Rminus; rewrite Rplus_opp_r, Rabs_R0; exact e0).
  constructor.
  - split; [|lra]. split; [exact Fa|]. split; [|apply Rabs_le; lra]. apply Z0. apply Rmult_le_pos; [apply pos_INR|lra].
  - apply (cumsum_close p' Up 1); auto; try lra. apply Z0. cbn [INR]. lra.
Qed.

Lemma sub_close x y A B e : finite x -> finite y -> Rabs (val x - A) <= e -> Rabs (val y - B) <= e -> 0 <= e <= 1/2 -> 0 <= A <= 2 -> 0 <= B <= 2 ->
  near (2 * e + 3 * ulp1) 2 (fsub x y) (A - B).
Proof.
  intros Fx Fy Hx Hy e0 HA HB. apply Rabs_le_inv in Hx, Hy.
  destruct (fsub_ok x y Fx Fy) as (F & V); [apply big4, Rabs_le; lra|].
  split; [exact F|]. split; [|apply Rabs_le; lra]. destruct (sub_error x y) as (d & Hd & Ed). rewrite V, Ed. pose proof ulp1_bounds.
  replace ((val x - val y) * (1 + d) - (A - B)) with ((val x - A) - (val y - B) + (val x - val y) * d) by ring.
  assert (T : Rabs ((val x - val y) * d) <= 3 * ulp1).
  { rewrite Rabs_mult. apply Rmult_le_compat; try apply Rabs_pos; [apply Rabs_le; lra|exact Hd]. }
  apply Rabs_le_inv in T. apply Rabs_le. lra.
Qed.

Lemma summed_fold t (is : list nat) : forall l x, summed l x -> summed (l ++ map t is) (fold_left (fun d i => fadd d (t i)) is x).
Proof.
  induction is as [|i is IH]; intros l x S; cbn [map fold_left]; [rewrite app_nil_r; exact S|].
  change (t i :: map t is) with ([t i] ++ map t is). rewrite app_assoc. apply IH.
  apply (summed_add l [t i]); [exact S|constructor|apply Permutation_refl].
Qed.

Lemma fold_rsum (t : nat -> R) (is : list nat) : forall x, fold_left (fun d i => d + t i) is x = x + rsum (map t is).
Proof. induction is as [|i is IH]; intros x; cbn; [ring|]. rewrite IH. unfold rsum. cbn. ring. Qed.

Lemma emd_pair_summed a b :
  let t := fun i => fsub (nth i (fcumsum a) f0) (nth i (fcumsum b) f0) in
  summed (map fabs (map t (0%nat :: seq 1 (length a - 2)))) (emd_pair_float a b).
Proof.
  intros t. unfold emd_pair_float. rewrite map_map. cbn [map].
  apply (summed_fold (fun i => fabs (t i)) (seq 1 (length a - 2)) [fabs (t 0%nat)] (fabs (t 0%nat))). constructor.
Qed.

Lemma nth_near (P : float -> R -> Prop) l m i : Forall2 P l m -> (i < length l)%nat -> P (nth i l f0) (nth i m 0).
Proof. intros H. revert i. induction H as [|x r l m E H IH]; intros i I; cbn in *; [lia|]. destruct i; [exact E|]. apply IH. lia. Qed.

Lemma emd_pair_accuracy a b : length a = length b -> a <> [] -> (Z.of_nat (length a) <= 2 ^ 40)%Z ->
  Forall in_unit a -> Forall in_unit b -> exact_sum a <= 2 -> exact_sum b <= 2 ->
  finite (emd_pair_float a b) /\ 0 <= val (emd_pair_float a b) /\
  Rabs (val (emd_pair_float a b) - emd_pair (map val a) (map val b)) <= 8 * INR (length a) ^ 2 * pow2 (-52).
Proof.
  intros L E N Ua Ub Ha Hb. pose proof (cumsum_of_close a Ua Ha N) as Ca. pose proof (cumsum_of_close b Ub Hb ltac:(lia)) as Cb. rewrite <- L in Cb.
  set (n := INR (length a)) in *. pose proof (small_error _ N) as Su. fold n in Su. pose proof ulp1_bounds as (u0 & u1).
  assert (n1 : 1 <= n) by (unfold n; change 1 with (INR 1); apply le_INR; destruct a; [congruence|cbn; lia]).
  assert (nu : 1 * ulp1 <= n * ulp1) by (apply Rmult_le_compat_r; lra).
  set (is := 0%nat :: seq 1 (length a - 2)). assert (La : (length a >= 1)%nat) by (destruct a; [congruence|cbn; lia]).
  assert (Lis : (length is <= length a)%nat) by (unfold is; cbn [length]; rewrite seq_length; lia).
  set (t := fun i => fsub (nth i (fcumsum a) f0) (nth i (fcumsum b) f0)). set (r := fun i => nth i (cumsum (map val a)) 0 - nth i (cumsum (map val b)) 0).
  assert (H : Forall2 (near (9 * (n * ulp1)) 2) (map t is) (map r is)).
  { assert (I : forall i, In i is -> (i < length a)%nat) by (intros i [<-|I]; [lia|apply in_seq in I; lia]).
    clearbody is. clear Lis. induction is as [|i is IH]; cbn [map]; constructor; [|apply IH; intros; apply I; right; assumption].
    specialize (I i (or_introl eq_refl)).
    destruct (nth_near _ _ _ i Ca ltac:(rewrite fcumsum_length; lia)) as ((Fx & Ex & Rx) & Px).
    destruct (nth_near _ _ _ i Cb ltac:(rewrite fcumsum_length; lia)) as ((Fy & Ey & Ry) & Py). apply Rabs_le_inv in Rx, Ry.
    apply (near_weaken (2 * (n * (3 * ulp1)) + 3 * ulp1)); [lra|]. apply sub_close; auto; lra. }
  destruct (abs_sum_close (9 * (n * ulp1)) (emd_pair_float a b) (map t is) (map r is) ltac:(lra) ltac:(rewrite map_length; lia) (emd_pair_summed a b) H) as (F & V & C & _).
  rewrite map_length in C. split; [exact F|]. split; [exact V|].
  assert (Ep : emd_pair (map val a) (map val b) = rsum (map Rabs (map r is))).
  { unfold emd_pair. rewrite map_length. rewrite (fold_rsum (fun i => Rabs (r i))), map_map. unfold is, rsum. cbn. reflexivity. }
  rewrite Ep. fold is t in C. apply Rle_trans with (1 := C). rewrite ulp52.
  assert (K : 0 <= INR (length is) <= n) by (split; [apply pos_INR|apply le_INR, Lis]). set (k := INR (length is)) in *.
  assert (K1 : k * (9 * (n * ulp1)) <= n * (9 * (n * ulp1))) by (apply Rmult_le_compat_r; lra).
  assert (K2 : k * ulp1 <= n * ulp1) by (apply Rmult_le_compat_r; lra).
  assert (K3 : k * (k * ulp1) <= n * (n * ulp1)) by (apply Rmult_le_compat; [lra|apply Rmult_le_pos; lra|lra|exact K2]).
  assert (K4 : 0 <= n * (n * ulp1)) by (apply Rmult_le_pos; [lra|apply Rmult_le_pos; lra]).
  replace (8 * n ^ 2 * (2 * ulp1)) with (16 * (n * (n * ulp1))) by ring. lra.
Qed.

Lemma emd_pair_self a : Forall in_unit a -> (Z.of_nat (length a) <= 2 ^ 53)%Z -> emd_pair_float a a = f0.
Proof.
  intros U N. apply (summed_zeros _ _ (emd_pair_summed a a)). apply Forall_forall. intros x I.
  apply in_map_iff in I. destruct I as (y & <- & I). apply in_map_iff in I. destruct I as (i & <- & _).
  assert (Fa : Forall (at_most 1) a) by (eapply Forall_impl; [|exact U]; intros z (Fz & Bz); split; [exact Fz|apply Rabs_le; lra]).
  pose proof (cumsum_at_most a Fa N) as C.
  assert (Fi : finite (nth i (fcumsum a) f0)).
  { destruct (Nat.lt_ge_cases i (length (fcumsum a))) as [Hi|Hi]; [|rewrite nth_overflow by exact Hi; apply f0_ok].
    rewrite Forall_forall in C. apply (C (nth i (fcumsum a) f0)). apply nth_In, Hi. }
  rewrite (fsub_self _ Fi). reflexivity.
Qed.
