(** * Proofs: relations between the losses. *)

From Coq Require Import Reals List ZArith Lia Lra Permutation Bool.
From Verif Require Import Num Spec Spec_Metrics M_Metrics L_Num L_Metrics L_Metrics2 Spec_Losses.
Import ListNotations.
Open Scope R_scope.

Lemma nonempty_of : forall {A} n (p : list A), length p = n -> (0 < n)%nat -> p <> [].
Proof. intros A n p H Hn E. subst p. simpl in H. lia. Qed.

Ltac vals n := repeat match goal with
  | D : distribution_over n ?p |- _ =>
      lazymatch goal with H : length p = n |- _ => fail | _ => idtac end;
      pose proof (dist_nonempty _ _ D); destruct (D) as (? & (? & ?));
      assert (p <> []) by (apply (nonempty_of n); assumption)
  end.

(** ** l1, mae, bray_curtis, l2 *)

Lemma l1_mae : forall n, (0 < n)%nat ->
  related_on (fun p => length p = n) (fun p q => l1 (vec p) (vec q)) (fun p q => mean_absolute_error (vec p) (vec q))
    (fun x y => x = INR n * y).
Proof.
  intros n Hn p q Hp Hq. pose proof (nonempty_of n p Hp Hn).
  rewrite l1_val, mae_val by (try congruence). eexists. eexists. split; [reflexivity|]. split; [reflexivity|].
  rewrite Hp. unfold dsum. rewrite Hp. rewrite (sumn_ext n (fun i => Rabs (nth i q 0 - nth i p 0)) (fun i => Rabs (nth i p 0 - nth i q 0)))
    by (intros; apply Rabs_minus_sym).
  field. pose proof (INR_pos n Hn). lra.
Qed.

Lemma bray_curtis_l1 : forall n,
  related n (fun p q => bray_curtis (vec p) (vec q)) (fun p q => l1 (vec p) (vec q)) (fun x y => x = y / 2).
Proof.
  intros n p q Dp Dq. vals n. rewrite (bray_curtis_val n) by assumption. rewrite l1_val by congruence.
  eexists. eexists. split; [reflexivity|]. split; reflexivity.
Qed.

Lemma mse_l2 : forall n, (0 < n)%nat ->
  related_on (fun p => length p = n) (fun p q => l2 (vec p) (vec q)) (fun p q => mean_squared_error (vec p) (vec q))
    (fun x y => 0 <= x /\ x ^ 2 = INR n * y).
Proof.
  intros n Hn p q Hp Hq. pose proof (nonempty_of n p Hp Hn).
  rewrite l2_val, mse_val by (try congruence). eexists. eexists. split; [reflexivity|]. split; [reflexivity|].
  split; [apply sqrt_pos|].
  rewrite pow2_sqrt by (apply sumn_nonneg; intros; apply pow2_ge_0).
  rewrite Hp. unfold dsum. rewrite Hp. rewrite (sumn_ext n (fun i => (nth i q 0 - nth i p 0) ^ 2) (fun i => (nth i p 0 - nth i q 0) ^ 2))
    by (intros; ring).
  field. pose proof (INR_pos n Hn). lra.
Qed.

Lemma sumsq_le_sq : forall n f, (forall i, (i < n)%nat -> 0 <= f i) -> sumn n (fun i => f i ^ 2) <= sumn n f ^ 2.
Proof.
  induction n; intros f Hf; cbn [sumn]; [lra|].
  pose proof (IHn f (fun i Hi => Hf i ltac:(lia))). pose proof (Hf n ltac:(lia)).
  assert (0 <= sumn n f) by (apply sumn_nonneg; intros; apply Hf; lia). nra.
Qed.

Lemma sq_le_sumsq : forall n f, sumn n f ^ 2 <= INR n * sumn n (fun i => f i ^ 2).
Proof.
  intros n f. pose proof (cauchy_schwarz n (fun _ => 1) f) as H. cbv beta in H.
  rewrite (sumn_ext n (fun i => 1 * f i) f) in H by (intros; ring).
  rewrite (sumn_ext n (fun i => 1 ^ 2) (fun _ => 1)) in H by (intros; ring). rewrite sumn_const in H. lra.
Qed.

Lemma le_of_sq : forall x y, 0 <= y -> x ^ 2 <= y ^ 2 -> x <= y.
Proof. intros. nra. Qed.

Lemma l2_l1 : forall n, (0 < n)%nat ->
  related_on (fun p => length p = n) (fun p q => l2 (vec p) (vec q)) (fun p q => l1 (vec p) (vec q))
    (fun x y => x <= y <= sqrt (INR n) * x).
Proof.
  intros n Hn p q Hp Hq. pose proof (nonempty_of n p Hp Hn).
  rewrite l2_val, l1_val by (try congruence). eexists. eexists. split; [reflexivity|]. split; [reflexivity|].
  unfold dsum. rewrite Hp. set (f := fun i => Rabs (nth i p 0 - nth i q 0)).
  rewrite (sumn_ext n (fun i => (nth i p 0 - nth i q 0) ^ 2) (fun i => f i ^ 2)) by (intros; unfold f; rewrite pow2_abs; reflexivity).
  assert (F : forall i, (i < n)%nat -> 0 <= f i) by (intros; apply Rabs_pos).
  assert (S0 : 0 <= sumn n f) by (apply sumn_nonneg; exact F).
  assert (S2 : 0 <= sumn n (fun i => f i ^ 2)) by (apply sumn_nonneg; intros; apply pow2_ge_0).
  split.
  - apply le_of_sq; [exact S0|]. rewrite pow2_sqrt by exact S2. apply sumsq_le_sq. exact F.
  - apply le_of_sq; [apply Rmult_le_pos; apply sqrt_pos|].
    rewrite Rpow_mult_distr, !pow2_sqrt by (try exact S2; apply pos_INR). apply sq_le_sumsq.
Qed.

(** ** Hellinger *)

Lemma sqrt_gap : forall a b, 0 <= a -> 0 <= b ->
  Rabs (a - b) = Rabs (sqrt b - sqrt a) * (sqrt a + sqrt b) /\ (sqrt b - sqrt a) ^ 2 <= Rabs (a - b).
Proof.
  intros a b Ha Hb. pose proof (sqrt_pos a). pose proof (sqrt_pos b).
  assert (E : Rabs (a - b) = Rabs (sqrt b - sqrt a) * (sqrt a + sqrt b)).
  { rewrite <- (Rabs_pos_eq (sqrt a + sqrt b)) by lra. rewrite <- Rabs_mult, (Rabs_minus_sym a b). f_equal.
    replace ((sqrt b - sqrt a) * (sqrt a + sqrt b)) with (sqrt b ^ 2 - sqrt a ^ 2) by ring.
    rewrite !pow2_sqrt by assumption. reflexivity. }
  split; [exact E|]. rewrite E, <- pow2_abs.
  assert (Rabs (sqrt b - sqrt a) <= sqrt a + sqrt b) by (apply Rabs_le; lra).
  pose proof (Rabs_pos (sqrt b - sqrt a)). nra.
Qed.

(** Cauchy-Schwarz for two non-negative functions. *)
Lemma l1_le_hellinger : forall n f g, (forall i, (i < n)%nat -> 0 <= f i) -> (forall i, (i < n)%nat -> 0 <= g i) ->
  sumn n (fun i => Rabs (f i - g i)) ^ 2 <=
  sumn n (fun i => (sqrt (g i) - sqrt (f i)) ^ 2) * (2 * (sumn n f + sumn n g)).
Proof.
  intros n f g Hf Hg.
  rewrite (sumn_ext n _ (fun i => Rabs (sqrt (g i) - sqrt (f i)) * (sqrt (f i) + sqrt (g i))))
    by (intros i Hi; apply (sqrt_gap (f i) (g i)); [apply Hf|apply Hg]; exact Hi).
  eapply Rle_trans; [apply cauchy_schwarz|]. cbv beta.
  rewrite (sumn_ext n (fun i => Rabs (sqrt (g i) - sqrt (f i)) ^ 2) (fun i => (sqrt (g i) - sqrt (f i)) ^ 2))
    by (intros; apply pow2_abs).
  apply Rmult_le_compat_l; [apply sumn_nonneg; intros; apply pow2_ge_0|].
  rewrite <- sumn_plus, <- sumn_scal. apply sumn_le. intros i Hi.
  pose proof (pow2_ge_0 (sqrt (f i) - sqrt (g i))).
  pose proof (pow2_sqrt (f i) (Hf i Hi)). pose proof (pow2_sqrt (g i) (Hg i Hi)). nra.
Qed.

Lemma hd_l1 : forall n,
  related n (fun p q => hdist (vec p) (vec q)) (fun p q => l1 (vec p) (vec q)) (fun x y => x ^ 2 <= y <= 2 * x).
Proof.
  intros n p q Dp Dq. vals n. rewrite hd_val, l1_val by (assumption || congruence).
  eexists. eexists. split; [reflexivity|]. split; [reflexivity|].
  unfold dsum. rewrite (proj1 Dp).
  assert (S2 : 0 <= sumn n (fun i => (sqrt (nth i q 0) - sqrt (nth i p 0)) ^ 2)) by (apply sumn_nonneg; intros; apply pow2_ge_0).
  split.
  - rewrite pow2_sqrt by exact S2. apply sumn_le. intros i Hi.
    apply (sqrt_gap (nth i p 0) (nth i q 0)); [apply (nth_dist n p i Dp)|apply (nth_dist n q i Dq)].
  - apply le_of_sq; [apply Rmult_le_pos; [lra|apply sqrt_pos]|]. rewrite Rpow_mult_distr, pow2_sqrt by exact S2.
    pose proof (l1_le_hellinger n (fun i => nth i p 0) (fun i => nth i q 0) (fun i _ => proj1 (nth_dist n p i Dp))
      (fun i _ => proj1 (nth_dist n q i Dq))) as C. cbv beta in C.
    rewrite (sumn_dist n p Dp), (sumn_dist n q Dq) in C. lra.
Qed.

(** ** Earth mover's distance *)

Lemma cum_pred : forall p k, nth (S k) p 0 = cum p (S k) - cum p k.
Proof. intros p k. unfold cum. change (sumn (S (S k)) (fun i => nth i p 0)) with (sumn (S k) (fun i => nth i p 0) + nth (S k) p 0). ring. Qed.

Lemma l1_le_2emd : forall n p q, sumn n (fun i => Rabs (nth i p 0 - nth i q 0)) <= 2 * emd_value n p q.
Proof.
  intros n p q. unfold emd_value.
  assert (G : forall m, sumn m (fun i => Rabs (nth i p 0 - nth i q 0)) <=
     2 * sumn m (fun k => Rabs (cum p k - cum q k)) - match m with O => 0 | S k => Rabs (cum p k - cum q k) end).
  { induction m as [|[|m] IH]; cbn [sumn] in *.
    - lra.
    - unfold cum. cbn [sumn]. replace (0 + nth 0 p 0 - (0 + nth 0 q 0)) with (nth 0 p 0 - nth 0 q 0) by ring. lra.
    - rewrite !cum_pred.
      pose proof (Rabs_triang (cum p (S m) - cum q (S m)) (- (cum p m - cum q m))) as Tri. rewrite Rabs_Ropp in Tri.
      replace (cum p (S m) - cum p m - (cum q (S m) - cum q m)) with
        (cum p (S m) - cum q (S m) + - (cum p m - cum q m)) by ring. lra. }
  specialize (G n). destruct n; [lra|]. pose proof (Rabs_pos (cum p n - cum q n)). lra.
Qed.

(** With equal masses, a cumulated difference is at most half of l1. *)
Lemma cum_gap : forall n p q k, sumn n (fun i => nth i p 0) = sumn n (fun i => nth i q 0) -> (k < n)%nat ->
  2 * Rabs (cum p k - cum q k) <= sumn n (fun i => Rabs (nth i p 0 - nth i q 0)).
Proof.
  intros n p q k E Hk. assert (En : n = (S k + (n - S k))%nat) by lia.
  set (m := (n - S k)%nat) in *. clearbody m. subst n. clear Hk.
  rewrite sumn_split. rewrite !sumn_split in E.
  unfold cum. rewrite <- sumn_minus.
  pose proof (sumn_Rabs_le (S k) (fun i => nth i p 0 - nth i q 0)) as A.
  pose proof (sumn_Rabs_le m (fun i => nth (S k + i) p 0 - nth (S k + i) q 0)) as B.
  assert (F : sumn (S k) (fun i => nth i p 0 - nth i q 0) = - sumn m (fun i => nth (S k + i) p 0 - nth (S k + i) q 0))
    by (rewrite !sumn_minus; lra).
  rewrite F, Rabs_Ropp in A |- *. lra.
Qed.

Lemma emd_l1 : forall n,
  related n (fun p q => emd (vec p) (vec q)) (fun p q => l1 (vec p) (vec q)) (fun x y => y / 2 <= x <= INR (n - 1) * (y / 2)).
Proof.
  intros n p q Dp Dq. vals n. rewrite (emd_value_emd n), l1_val by (assumption || congruence).
  eexists. eexists. split; [reflexivity|]. split; [reflexivity|].
  unfold dsum. rewrite (proj1 Dp). pose proof (l1_le_2emd n p q). split; [lra|].
  destruct n as [|m]; [lia|]. replace (S m - 1)%nat with m by lia.
  unfold emd_value. change (sumn (S m) (fun k => Rabs (cum p k - cum q k)))
    with (sumn m (fun k => Rabs (cum p k - cum q k)) + Rabs (cum p m - cum q m)).
  rewrite (cum_last m p Dp), (cum_last m q Dq). replace (1 - 1) with 0 by ring. rewrite Rabs_R0, Rplus_0_r.
  rewrite <- sumn_const. apply sumn_le. intros k Hk.
  pose proof (cum_gap (S m) p q k) as G. rewrite (sumn_dist _ p Dp), (sumn_dist _ q Dq) in G.
  specialize (G eq_refl ltac:(lia)). lra.
Qed.

(** Summation by parts. *)
Lemma mean_class_cum : forall n f, sumn (S n) (fun i => INR i * f i) =
  INR n * sumn (S n) f - sumn n (fun k => sumn (S k) f).
Proof.
  induction n; intros f.
  - cbn. ring.
  - change (sumn (S (S n)) (fun i => INR i * f i)) with (sumn (S n) (fun i => INR i * f i) + INR (S n) * f (S n)).
    rewrite IHn. change (sumn (S (S n)) f) with (sumn (S n) f + f (S n)).
    change (sumn (S n) (fun k => sumn (S k) f)) with (sumn n (fun k => sumn (S k) f) + sumn (S n) f).
    rewrite S_INR. ring.
Qed.

Lemma emd_mean_class : forall n p q, distribution_over n p -> distribution_over n q ->
  exists x, emd (vec p) (vec q) = Val x /\ Rabs (mean_class n p - mean_class n q) <= x.
Proof.
  intros n p q Dp Dq. vals n. rewrite (emd_value_emd n) by assumption. eexists. split; [reflexivity|].
  destruct n as [|m]; [lia|]. unfold mean_class. rewrite !mean_class_cum, (sumn_dist _ p Dp), (sumn_dist _ q Dq).
  replace (INR m * 1 - sumn m (fun k => sumn (S k) (fun i => nth i p 0)) - (INR m * 1 - sumn m (fun k => sumn (S k) (fun i => nth i q 0))))
    with (- (sumn m (fun k => sumn (S k) (fun i => nth i p 0)) - sumn m (fun k => sumn (S k) (fun i => nth i q 0)))) by ring.
  rewrite Rabs_Ropp, <- sumn_minus. eapply Rle_trans; [apply sumn_Rabs_le|].
  unfold emd_value. change (sumn (S m) (fun k => Rabs (cum p k - cum q k)))
    with (sumn m (fun k => Rabs (cum p k - cum q k)) + Rabs (cum p m - cum q m)).
  pose proof (Rabs_pos (cum p m - cum q m)).
  change (sumn m (fun i => Rabs (cum p i - cum q i)) <= sumn m (fun k => Rabs (cum p k - cum q k)) + Rabs (cum p m - cum q m)). lra.
Qed.

(** ** probsymmetric, topsoe and kld *)

Lemma ps_l1 : forall e n, 0 < e ->
  related n (fun p q => probsymmetric e (vec p) (vec q)) (fun p q => l1 (vec p) (vec q))
    (fun x y => x <= 2 * y /\ y ^ 2 <= (2 + INR n * e) * (x / 2)).
Proof.
  intros e n He p q Dp Dq. vals n. rewrite ps_val, l1_val by (assumption || congruence).
  eexists. eexists. split; [reflexivity|]. split; [reflexivity|]. unfold dsum. rewrite (proj1 Dp). split.
  - apply Rmult_le_compat_l; [lra|]. apply sumn_le. intros i Hi.
    pose proof (nth_dist n p i Dp) as [Ha _]. pose proof (nth_dist n q i Dq) as [Hb _].
    set (a := nth i p 0) in *. set (b := nth i q 0) in *. rewrite <- pow2_abs.
    assert (Rabs (a - b) <= b + a + e) by (apply Rabs_le; lra). pose proof (Rabs_pos (a - b)).
    apply (Rmult_le_reg_r (b + a + e)); [lra|]. unfold Rdiv. rewrite Rmult_assoc, Rinv_l by lra. nra.
  - replace (2 * sumn n (fun i => (nth i p 0 - nth i q 0) ^ 2 / (nth i q 0 + nth i p 0 + e)) / 2)
      with (sumn n (fun i => (nth i p 0 - nth i q 0) ^ 2 / (nth i q 0 + nth i p 0 + e))) by field.
    assert (P : forall i, 0 < nth i q 0 + nth i p 0 + e)
      by (intros i; pose proof (nth_dist n p i Dp); pose proof (nth_dist n q i Dq); lra).
    rewrite (sumn_ext n _ (fun i => sqrt (nth i q 0 + nth i p 0 + e) * (Rabs (nth i p 0 - nth i q 0) / sqrt (nth i q 0 + nth i p 0 + e)))).
    2: { intros i Hi. field. pose proof (sqrt_lt_R0 _ (P i)). lra. }
    eapply Rle_trans; [apply cauchy_schwarz|]. cbv beta. right. f_equal.
    + rewrite (sumn_ext n _ (fun i => nth i q 0 + nth i p 0 + e)) by (intros i Hi; apply pow2_sqrt; left; apply P).
      rewrite !sumn_plus, sumn_const, (sumn_dist n p Dp), (sumn_dist n q Dq). ring.
    + apply sumn_ext. intros i Hi. unfold Rdiv. rewrite Rpow_mult_distr, pow2_abs, pow_inv, pow2_sqrt by (left; apply P). reflexivity.
Qed.

(** One class: topsoe is at most a quarter of the term of probsymmetric (which doubles its sum). *)
Lemma topsoe_ps_term : forall e a b, 0 < e -> 0 <= a -> 0 <= b ->
  topsoe_term e a b <= (a - b) ^ 2 / (b + a + e).
Proof.
  intros e a b He Ha Hb. unfold topsoe_term.
  set (M := a + b + e). assert (HM : 0 < M) by (unfold M; lra).
  pose proof (ln_le_minus1 ((2 * a + e) / M) ltac:(apply Rdiv_lt_0_compat; lra)) as A.
  pose proof (ln_le_minus1 ((2 * b + e) / M) ltac:(apply Rdiv_lt_0_compat; lra)) as B.
  apply (Rmult_le_compat_l a) in A; [|lra]. apply (Rmult_le_compat_l b) in B; [|lra].
  eapply Rle_trans; [apply Rplus_le_compat; [exact A|exact B]|]. right.
  replace (b + a + e) with M by (unfold M; ring). unfold M. field. fold M. lra.
Qed.

Lemma topsoe_ps : forall e n, 0 < e ->
  related n (fun p q => topsoe e (vec p) (vec q)) (fun p q => probsymmetric e (vec p) (vec q)) (fun x y => x <= y / 2).
Proof.
  intros e n He p q Dp Dq. vals n. rewrite ps_val, topsoe_val by (assumption || congruence).
  eexists. eexists. split; [reflexivity|]. split; [reflexivity|]. unfold dsum. rewrite (proj1 Dp).
  match goal with |- _ <= 2 * ?s / 2 => replace (2 * s / 2) with s by field end.
  apply sumn_le. intros i Hi. apply topsoe_ps_term; [exact He|apply (nth_dist n p i Dp)|apply (nth_dist n q i Dq)].
Qed.

(** a ln (a/b) is at least a - b plus the squared gap of the square roots. *)
Lemma kl_hellinger_term : forall a b, 0 < a -> 0 < b -> a - b + (sqrt b - sqrt a) ^ 2 <= a * ln (a / b).
Proof.
  intros a b Ha Hb. pose proof (sqrt_lt_R0 a Ha) as Sa. pose proof (sqrt_lt_R0 b Hb) as Sb.
  pose proof (ln_ge (sqrt a / sqrt b) ltac:(apply Rdiv_lt_0_compat; assumption)) as H.
  assert (E : ln (a / b) = 2 * ln (sqrt a / sqrt b)).
  { rewrite !ln_div by assumption. rewrite <- (pow2_sqrt a) at 1 by lra. rewrite <- (pow2_sqrt b) at 1 by lra.
    replace (sqrt a ^ 2) with (sqrt a * sqrt a) by ring. replace (sqrt b ^ 2) with (sqrt b * sqrt b) by ring.
    rewrite !ln_mult by assumption. ring. }
  rewrite E. apply (Rmult_le_compat_l (2 * a)) in H; [|lra].
  assert (F : 2 * (sqrt a * sqrt a) * (1 - / (sqrt a / sqrt b)) = 2 * (sqrt a * sqrt a) - 2 * (sqrt a * sqrt b)) by (field; lra).
  rewrite (sqrt_sqrt a) in F by lra. rewrite F in H.
  pose proof (pow2_sqrt a ltac:(lra)). pose proof (pow2_sqrt b ltac:(lra)). nra.
Qed.

Lemma topsoe_hellinger_term : forall e a b, 0 < e -> 0 <= a -> 0 <= b ->
  (sqrt ((a + b + e) / 2) - sqrt (a + e / 2)) ^ 2 + (sqrt ((a + b + e) / 2) - sqrt (b + e / 2)) ^ 2 <= topsoe_term e a b.
Proof.
  intros e a b He Ha Hb. unfold topsoe_term.
  set (P := a + e / 2). set (Q := b + e / 2). set (M := (a + b + e) / 2).
  assert (HP : 0 < P) by (unfold P; lra). assert (HQ : 0 < Q) by (unfold Q; lra). assert (HM : 0 < M) by (unfold M; lra).
  replace ((2 * a + e) / (a + b + e)) with (P / M) by (unfold P, M; field; lra).
  replace ((2 * b + e) / (a + b + e)) with (Q / M) by (unfold Q, M; field; lra).
  pose proof (kl_hellinger_term P M HP HM). pose proof (kl_hellinger_term Q M HQ HM).
  pose proof (ln_le_minus1 (P / M) (Rdiv_lt_0_compat _ _ HP HM)).
  pose proof (ln_le_minus1 (Q / M) (Rdiv_lt_0_compat _ _ HQ HM)).
  assert (P / M + Q / M = 2) by (unfold P, Q, M; field; lra).
  assert (0 <= e / 2 * - (ln (P / M) + ln (Q / M))) by (apply Rmult_le_pos; lra).
  replace (a * ln (P / M) + b * ln (Q / M)) with (P * ln (P / M) + Q * ln (Q / M) - e / 2 * (ln (P / M) + ln (Q / M)))
    by (unfold P, Q; field).
  assert (P - M + (Q - M) = 0) by (unfold P, Q, M; field). lra.
Qed.

Lemma topsoe_l1 : forall e n, 0 < e ->
  related n (fun p q => topsoe e (vec p) (vec q)) (fun p q => l1 (vec p) (vec q)) (fun x y => x <= y /\ y ^ 2 <= (8 + 4 * (INR n * e)) * x).
Proof.
  intros e n He p q Dp Dq.
  destruct (topsoe_ps e n He p q Dp Dq) as (x & z & Ex & Ez & Hxz).
  destruct (ps_l1 e n He p q Dp Dq) as (z' & y & Ez' & Ey & Hzy & _).
  assert (z' = z) by congruence. subst z'. exists x, y. split; [exact Ex|]. split; [exact Ey|]. split; [lra|].
  vals n. rewrite topsoe_val in Ex by (assumption || congruence). rewrite l1_val in Ey by (assumption || congruence).
  injection Ex as <-. injection Ey as <-. unfold dsum. rewrite (proj1 Dp).
  pose proof (fun i => proj1 (nth_dist n p i Dp)) as Pp. pose proof (fun i => proj1 (nth_dist n q i Dq)) as Pq.
  pose proof (l1_le_hellinger n (fun i => nth i p 0 + e / 2) (fun i => (nth i p 0 + nth i q 0 + e) / 2)
    ltac:(intros i _; specialize (Pp i); lra) ltac:(intros i _; specialize (Pp i); specialize (Pq i); lra)) as A.
  pose proof (l1_le_hellinger n (fun i => nth i q 0 + e / 2) (fun i => (nth i p 0 + nth i q 0 + e) / 2)
    ltac:(intros i _; specialize (Pq i); lra) ltac:(intros i _; specialize (Pp i); specialize (Pq i); lra)) as B.
  cbv beta in A, B.
  rewrite (sumn_ext n (fun i => Rabs (nth i p 0 + e / 2 - (nth i p 0 + nth i q 0 + e) / 2)) (fun i => / 2 * Rabs (nth i p 0 - nth i q 0))) in A.
  2: { intros i Hi. rewrite <- (Rabs_pos_eq (/ 2)) by lra. rewrite <- Rabs_mult. f_equal. field. }
  rewrite (sumn_ext n (fun i => Rabs (nth i q 0 + e / 2 - (nth i p 0 + nth i q 0 + e) / 2)) (fun i => / 2 * Rabs (nth i p 0 - nth i q 0))) in B.
  2: { intros i Hi. rewrite <- (Rabs_pos_eq (/ 2)) by lra. rewrite Rabs_minus_sym, <- Rabs_mult. f_equal. field. }
  rewrite sumn_scal in A, B. rewrite sumn_div, !sumn_plus, !sumn_const, (sumn_dist n p Dp), (sumn_dist n q Dq) in A.
  rewrite sumn_div, !sumn_plus, !sumn_const, (sumn_dist n p Dp), (sumn_dist n q Dq) in B.
  set (L := sumn n (fun i => Rabs (nth i p 0 - nth i q 0))) in *.
  assert (T : sumn n (fun i => (sqrt ((nth i p 0 + nth i q 0 + e) / 2) - sqrt (nth i p 0 + e / 2)) ^ 2) +
              sumn n (fun i => (sqrt ((nth i p 0 + nth i q 0 + e) / 2) - sqrt (nth i q 0 + e / 2)) ^ 2) <=
              sumn n (fun i => topsoe_term e (nth i p 0) (nth i q 0))).
  { rewrite <- sumn_plus. apply sumn_le. intros i Hi. apply topsoe_hellinger_term; [exact He|apply Pp|apply Pq]. }
  set (HA := sumn n (fun i => (sqrt ((nth i p 0 + nth i q 0 + e) / 2) - sqrt (nth i p 0 + e / 2)) ^ 2)) in *.
  set (HB := sumn n (fun i => (sqrt ((nth i p 0 + nth i q 0 + e) / 2) - sqrt (nth i q 0 + e / 2)) ^ 2)) in *.
  set (TT := sumn n (fun i => topsoe_term e (nth i p 0) (nth i q 0))) in *.
  pose proof (pos_INR n) as Nn. assert (NE : 0 <= INR n * e) by (apply Rmult_le_pos; lra).
  replace (2 * (1 + INR n * (e / 2) + (1 + 1 + INR n * e) / 2)) with (4 + 2 * (INR n * e)) in A by field.
  replace (2 * (1 + INR n * (e / 2) + (1 + 1 + INR n * e) / 2)) with (4 + 2 * (INR n * e)) in B by field.
  assert (C : (HA + HB) * (4 + 2 * (INR n * e)) <= TT * (4 + 2 * (INR n * e))) by (apply Rmult_le_compat_r; lra).
  replace ((/ 2 * L) ^ 2) with (L ^ 2 / 4) in A, B by field. lra.
Qed.

(** l1 is small when kld is small: with Q = q + e the gap is at most n e. *)
Lemma kld_l1 : forall e n p q, 0 < e -> distribution_over n p -> distribution_over n q -> Forall (fun x => 0 < x) p ->
  exists x y, kld e (vec p) (vec q) = Val x /\ l1 (vec p) (vec q) = Val y /\ 0 <= x * ln 2 + INR n * e /\
    y <= INR n * e + sqrt ((4 + 2 * (INR n * e)) * (x * ln 2 + INR n * e)).
Proof.
  intros e n p q He Dp Dq Pp. vals n. rewrite kld_val, l1_val by (assumption || congruence).
  eexists. eexists. split; [reflexivity|]. split; [reflexivity|].
  unfold dsum. rewrite (proj1 Dp).
  pose proof (fun i => proj1 (nth_dist n p i Dp)) as P0. pose proof (fun i => proj1 (nth_dist n q i Dq)) as Q0.
  pose proof ln2_pos as L2.
  rewrite (sumn_ext n (fun i => nth i p 0 * (ln (nth i p 0 / (nth i q 0 + e)) / ln 2))
    (fun i => nth i p 0 * ln (nth i p 0 / (nth i q 0 + e)) / ln 2)) by (intros; field; lra).
  rewrite sumn_div. set (K := sumn n (fun i => nth i p 0 * ln (nth i p 0 / (nth i q 0 + e)))).
  replace (K / ln 2 * ln 2) with K by (field; lra).
  pose proof (pos_INR n) as Nn. assert (NE : 0 <= INR n * e) by (apply Rmult_le_pos; lra).
  assert (HK : sumn n (fun i => (sqrt (nth i q 0 + e) - sqrt (nth i p 0)) ^ 2) <= K + INR n * e).
  { assert (G : sumn n (fun i => nth i p 0 - (nth i q 0 + e) + (sqrt (nth i q 0 + e) - sqrt (nth i p 0)) ^ 2) <= K).
    { apply sumn_le. intros i Hi. apply kl_hellinger_term; [|specialize (Q0 i); lra].
      rewrite Forall_forall in Pp. apply Pp, nth_In. rewrite (proj1 Dp). exact Hi. }
    rewrite sumn_plus, sumn_minus, sumn_plus, sumn_const, (sumn_dist n p Dp), (sumn_dist n q Dq) in G. lra. }
  assert (H0' : 0 <= sumn n (fun i => (sqrt (nth i q 0 + e) - sqrt (nth i p 0)) ^ 2)) by (apply sumn_nonneg; intros; apply pow2_ge_0).
  split; [lra|].
  pose proof (l1_le_hellinger n (fun i => nth i p 0) (fun i => nth i q 0 + e) ltac:(intros i _; apply P0)
    ltac:(intros i _; specialize (Q0 i); lra)) as A. cbv beta in A.
  rewrite sumn_plus, sumn_const, (sumn_dist n p Dp), (sumn_dist n q Dq) in A.
  assert (T : sumn n (fun i => Rabs (nth i p 0 - nth i q 0)) <= sumn n (fun i => Rabs (nth i p 0 - (nth i q 0 + e))) + INR n * e).
  { rewrite <- sumn_const, <- sumn_plus. apply sumn_le. intros i Hi.
    pose proof (Rabs_triang (nth i p 0 - (nth i q 0 + e)) e) as Tr. rewrite (Rabs_pos_eq e) in Tr by lra.
    replace (nth i p 0 - (nth i q 0 + e) + e) with (nth i p 0 - nth i q 0) in Tr by ring. exact Tr. }
  eapply Rle_trans; [exact T|]. rewrite Rplus_comm. apply Rplus_le_compat_l.
  apply le_of_sq; [apply sqrt_pos|]. rewrite pow2_sqrt by (apply Rmult_le_pos; lra).
  eapply Rle_trans; [exact A|]. rewrite Rmult_comm.
  replace (2 * (1 + (1 + INR n * e))) with (4 + 2 * (INR n * e)) by ring. apply Rmult_le_compat_l; lra.
Qed.
