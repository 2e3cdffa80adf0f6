(** * Proofs about the metrics: ranges, optimal transport, scores. *)

From Coq Require Import Reals List ZArith Lia Lra Permutation Bool.
From Verif Require Import Num Spec Spec_Metrics L_Num M_Metrics L_Metrics.
Import ListNotations.
Open Scope R_scope.

Ltac dist_nonempty n := apply (length_nonempty n); auto.

Lemma sumn_dist : forall n p, distribution_over n p -> sumn n (fun i => nth i p 0) = 1.
Proof. intros n p [Hl [_ Hs]]. rewrite <- Hl, sumn_nth. auto. Qed.

Lemma nth_dist : forall n p i, distribution_over n p -> 0 <= nth i p 0 <= 1.
Proof.
  intros n p i [Hl Hd]. destruct (Nat.lt_ge_cases i (length p)).
  - apply (distribution_le_1 p); auto. apply nth_In; auto.
  - rewrite nth_overflow by auto. lra.
Qed.

Lemma dist_nonempty : forall n p, distribution_over n p -> (0 < n)%nat.
Proof.
  intros n p [Hl [_ Hs]]. destruct p; simpl in *; [lra|lia].
Qed.

(** ** C24: ranges *)

Lemma dsum_abs_le_2 : forall n p q, distribution_over n p -> distribution_over n q ->
  dsum (fun a b => Rabs (a - b)) p q <= 2.
Proof.
  intros. unfold dsum. pose proof H as [Hp _]. rewrite Hp.
  apply Rle_trans with (sumn n (fun i => nth i p 0 + nth i q 0)).
  - apply sumn_le. intros i Hi. pose proof (nth_dist n p i H). pose proof (nth_dist n q i H0).
    apply Rabs_le. lra.
  - rewrite sumn_plus, (sumn_dist n p), (sumn_dist n q) by auto. lra.
Qed.

Lemma l1_range : forall n, ranges_on_distributions n 0 2 (fun p q => l1 (vec p) (vec q)).
Proof.
  intros n p q Dp Dq. pose proof (dist_nonempty _ _ Dp) as Hn. pose proof Dp as [Hp _]. pose proof Dq as [Hq _].
  exists (dsum (fun a b => Rabs (a - b)) p q). split; [apply l1_val; [lia|dist_nonempty n]|].
  split; [apply dsum_nonneg; intros; apply Rabs_pos|apply (dsum_abs_le_2 n); auto].
Qed.

Lemma mae_range : forall n, ranges_on_distributions n 0 (2 / INR n) (fun p q => mean_absolute_error (vec p) (vec q)).
Proof.
  intros n p q Dp Dq. pose proof (dist_nonempty _ _ Dp) as Hn. pose proof Dp as [Hp _]. pose proof Dq as [Hq _].
  assert (0 < / INR n) by (apply Rinv_0_lt_compat, INR_pos; auto).
  exists (dsum (fun a b => Rabs (a - b)) p q / INR n). split.
  - rewrite mae_val by (try lia; dist_nonempty n). rewrite Hp. do 2 f_equal.
    apply dsum_ext. intros; apply Rabs_minus_sym.
  - split.
    + apply Rmult_le_pos; [apply dsum_nonneg; intros; apply Rabs_pos|lra].
    + apply Rmult_le_compat_r; [lra|apply (dsum_abs_le_2 n); auto].
Qed.

Lemma l2_range : forall n, ranges_on_distributions n 0 (sqrt 2) (fun p q => l2 (vec p) (vec q)).
Proof.
  intros n p q Dp Dq. pose proof (dist_nonempty _ _ Dp) as Hn. pose proof Dp as [Hp _]. pose proof Dq as [Hq _].
  exists (sqrt (dsum (fun a b => (a - b) ^ 2) p q)). split; [apply l2_val; [lia|dist_nonempty n]|].
  split; [apply sqrt_pos|]. apply sqrt_le_1_alt. unfold dsum. rewrite Hp.
  apply Rle_trans with (sumn n (fun i => nth i p 0 + nth i q 0)).
  - apply sumn_le. intros i Hi. pose proof (nth_dist n p i Dp). pose proof (nth_dist n q i Dq). nra.
  - rewrite sumn_plus, (sumn_dist n p), (sumn_dist n q); auto; lra.
Qed.

Lemma hd_range : forall n, ranges_on_distributions n 0 (sqrt 2) (fun p q => hdist (vec p) (vec q)).
Proof.
  intros n p q Dp Dq. pose proof (dist_nonempty _ _ Dp) as Hn. pose proof Dp as [Hp [Pp _]]. pose proof Dq as [Hq [Pq _]].
  exists (sqrt (dsum (fun a b => (sqrt b - sqrt a) ^ 2) p q)). split; [apply hd_val; auto; [lia|dist_nonempty n]|].
  split; [apply sqrt_pos|]. apply sqrt_le_1_alt. unfold dsum. rewrite Hp.
  apply Rle_trans with (sumn n (fun i => nth i p 0 + nth i q 0)).
  - apply sumn_le. intros i Hi. pose proof (nth_dist n p i Dp). pose proof (nth_dist n q i Dq).
    pose proof (sqrt_pos (nth i p 0)). pose proof (sqrt_pos (nth i q 0)).
    pose proof (pow2_sqrt (nth i p 0)). pose proof (pow2_sqrt (nth i q 0)). nra.
  - rewrite sumn_plus, (sumn_dist n p), (sumn_dist n q); auto; lra.
Qed.

Lemma bray_curtis_val : forall n p q, distribution_over n p -> distribution_over n q ->
  bray_curtis (vec p) (vec q) = Val (dsum (fun a b => Rabs (a - b)) p q / 2).
Proof.
  intros n p q Dp Dq. pose proof (dist_nonempty _ _ Dp) as Hn. pose proof Dp as [Hp _]. pose proof Dq as [Hq _].
  unfold bray_curtis. rewrite checked_vec by (try lia; dist_nonempty n).
  rewrite !rsum_vmap2 by lia. rewrite sumn_plus. rewrite Hp at 2 3.
  rewrite (sumn_dist n p), (sumn_dist n q) by auto.
  unfold odiv. destruct (Req_EM_T (1 + 1) 0); [lra|]. unfold dsum. f_equal.
Qed.

Lemma bray_curtis_range : forall n, ranges_on_distributions n 0 1 (fun p q => bray_curtis (vec p) (vec q)).
Proof.
  intros n p q Dp Dq. exists (dsum (fun a b => Rabs (a - b)) p q / 2).
  split; [apply (bray_curtis_val n); auto|].
  pose proof (dsum_abs_le_2 n p q Dp Dq).
  assert (0 <= dsum (fun a b => Rabs (a - b)) p q) by (apply dsum_nonneg; intros; apply Rabs_pos). lra.
Qed.

Lemma cum_range : forall n p k, distribution_over n p -> (k < n)%nat -> 0 <= cum p k <= 1.
Proof.
  intros n p k Dp Hk. unfold cum. split.
  - apply sumn_nonneg. intros. apply (nth_dist n p i Dp).
  - rewrite <- (sumn_dist n p Dp). replace n with (S k + (n - S k))%nat at 1 by lia.
    rewrite sumn_split.
    assert (0 <= sumn (n - S k) (fun i => nth (S k + i) p 0)).
    { apply sumn_nonneg. intros. apply (nth_dist n p _ Dp). }
    lra.
Qed.

Lemma cum_last : forall n p, distribution_over (S n) p -> cum p n = 1.
Proof. intros. unfold cum. apply sumn_dist; auto. Qed.

Lemma emd_range : forall n, ranges_on_distributions n 0 (INR (n - 1)) (fun p q => emd (vec p) (vec q)).
Proof.
  intros n p q Dp Dq. pose proof (dist_nonempty _ _ Dp) as Hn. pose proof Dp as [Hp _]. pose proof Dq as [Hq _].
  eexists. split; [apply emd_val; [lia|dist_nonempty n]|].
  split; [apply sumn_nonneg; intros; apply Rabs_pos|].
  rewrite Hp. destruct n as [|m]; [lia|]. cbn [sumn]. rewrite (cum_last m p), (cum_last m q) by auto.
  rewrite Rminus_diag_eq by auto. rewrite Rabs_R0.
  replace (S m - 1)%nat with m by lia.
  rewrite <- (Rmult_1_r (INR m)), <- sumn_const, Rplus_0_r. apply sumn_le.
  intros i Hi. pose proof (cum_range (S m) p i Dp ltac:(lia)). pose proof (cum_range (S m) q i Dq ltac:(lia)).
  apply Rabs_le. lra.
Qed.

(** Extremes *)

Lemma concentrated_dist : forall n k, (k < n)%nat -> distribution_over n (concentrated n k).
Proof.
  intros. split; [apply tabulate_length|]. split.
  - apply Forall_forall. intros x Hx. unfold concentrated, tabulate in Hx. apply in_map_iff in Hx.
    destruct Hx as [i [<- _]]. destruct (Nat.eqb i k); lra.
  - unfold concentrated. rewrite rsum_tabulate, (sumn_single n k); auto.
    + rewrite Nat.eqb_refl; auto.
    + intros i Hi Hne. destruct (Nat.eqb_spec i k); [congruence|auto].
Qed.

Lemma concentrated_nth : forall n k i, (i < n)%nat ->
  nth i (concentrated n k) 0 = if Nat.eqb i k then 1 else 0.
Proof. intros. unfold concentrated. rewrite tabulate_nth; auto. Qed.

Lemma sumn_two : forall n, (2 <= n)%nat ->
  sumn n (fun i => (if Nat.eqb i 0 then 1 else 0) + (if Nat.eqb i (n - 1) then 1 else 0)) = 2.
Proof.
  intros. rewrite sumn_plus.
  rewrite (sumn_single n 0 (fun i => if Nat.eqb i 0 then 1 else 0)).
  - rewrite (sumn_single n (n - 1) (fun i => if Nat.eqb i (n - 1) then 1 else 0)).
    + rewrite !Nat.eqb_refl. lra.
    + lia.
    + intros i _ Hi. destruct (Nat.eqb_spec i (n - 1)); [congruence|auto].
  - lia.
  - intros i _ Hi. destruct (Nat.eqb_spec i 0); [congruence|auto].
Qed.

Lemma dsum_extreme : forall f n, (2 <= n)%nat -> f 1 0 = 1 -> f 0 1 = 1 -> f 0 0 = 0 ->
  dsum f (concentrated n 0) (concentrated n (n - 1)) = 2.
Proof.
  intros. unfold dsum. unfold concentrated at 1. rewrite tabulate_length.
  rewrite <- (sumn_two n H). apply sumn_ext. intros i Hi. rewrite !concentrated_nth by auto.
  destruct (Nat.eqb_spec i 0); destruct (Nat.eqb_spec i (n - 1)); rewrite ?H0, ?H1, ?H2; try lra; lia.
Qed.

Lemma conc_len : forall n k, length (concentrated n k) = n.
Proof. intros; apply tabulate_length. Qed.

Lemma metrics_attained : forall n, (2 <= n)%nat ->
  attained n 2 (fun p q => l1 (vec p) (vec q)) /\
  attained n (2 / INR n) (fun p q => mean_absolute_error (vec p) (vec q)) /\
  attained n (sqrt 2) (fun p q => l2 (vec p) (vec q)) /\
  attained n (sqrt 2) (fun p q => hdist (vec p) (vec q)) /\
  attained n 1 (fun p q => bray_curtis (vec p) (vec q)) /\
  attained n (INR (n - 1)) (fun p q => emd (vec p) (vec q)).
Proof.
  intros n Hn.
  pose proof (concentrated_dist n 0 ltac:(lia)) as D0.
  pose proof (concentrated_dist n (n - 1) ltac:(lia)) as D1.
  assert (Hl : length (concentrated n 0) = length (concentrated n (n - 1))) by (rewrite !conc_len; auto).
  assert (Hne : concentrated n 0 <> []) by (apply (length_nonempty n); [apply conc_len|lia]).
  repeat split; exists (concentrated n 0), (concentrated n (n - 1)); (split; [auto|split; [auto|]]).
  - rewrite l1_val by auto. f_equal. apply dsum_extreme; auto;
      [rewrite Rabs_right; lra|rewrite Rabs_left; lra|rewrite Rabs_right; lra].
  - rewrite mae_val by auto. rewrite conc_len. do 2 f_equal. apply dsum_extreme; auto;
      [rewrite Rabs_left; lra|rewrite Rabs_right; lra|rewrite Rabs_right; lra].
  - rewrite l2_val by auto. do 2 f_equal. apply dsum_extreme; auto; ring.
  - rewrite hd_val; auto; try apply D0; try apply D1.
    do 2 f_equal. apply dsum_extreme; auto; rewrite ?sqrt_0, ?sqrt_1; ring.
  - rewrite (bray_curtis_val n) by auto. f_equal.
    rewrite dsum_extreme; auto; [lra|rewrite Rabs_right; lra|rewrite Rabs_left; lra|rewrite Rabs_right; lra].
  - rewrite emd_val by auto. f_equal. rewrite conc_len.
    destruct n as [|m]; [lia|]. cbn [sumn]. rewrite (cum_last m), (cum_last m) by auto.
    rewrite Rminus_diag_eq by auto. rewrite Rabs_R0. replace (S m - 1)%nat with m by lia.
    rewrite Rplus_0_r. rewrite <- (Rmult_1_r (INR m)), <- sumn_const.
    apply sumn_ext. intros k Hk.
    assert (E1 : cum (concentrated (S m) 0) k = 1).
    { unfold cum. rewrite (sumn_single (S k) 0); [|lia|].
      - rewrite concentrated_nth by lia. auto.
      - intros i Hi Hi0. rewrite concentrated_nth by lia. destruct (Nat.eqb_spec i 0); [congruence|auto]. }
    assert (E2 : cum (concentrated (S m) (S m - 1)) k = 0).
    { unfold cum. apply sumn_0. intros i Hi. rewrite concentrated_nth by lia.
      destruct (Nat.eqb_spec i (S m - 1)); [lia|auto]. }
    replace (S m - 1)%nat with m in E2 by lia. rewrite E1, E2. rewrite Rabs_right; lra.
Qed.

(** ** Logarithms *)

Lemma ln_le_minus1 : forall x, 0 < x -> ln x <= x - 1.
Proof.
  intros. destruct (Req_dec x 1).
  - subst. rewrite ln_1. lra.
  - assert (ln x <> 0).
    { intro E. apply H0. apply ln_inv; [auto|lra|]. rewrite ln_1; auto. }
    pose proof (exp_ineq1 (ln x) H1). rewrite exp_ln in H2 by auto. lra.
Qed.

Lemma ln_lt_minus1 : forall x, 0 < x -> x <> 1 -> ln x < x - 1.
Proof.
  intros.
  assert (ln x <> 0).
  { intro E. apply H0. apply ln_inv; [auto|lra|]. rewrite ln_1; auto. }
  pose proof (exp_ineq1 (ln x) H1). rewrite exp_ln in H2 by auto. lra.
Qed.

Lemma ln_ge : forall x, 0 < x -> 1 - / x <= ln x.
Proof.
  intros. pose proof (ln_le_minus1 (/ x) (Rinv_0_lt_compat _ H)).
  rewrite ln_Rinv in H0 by auto. lra.
Qed.

Lemma ln_gt : forall x, 0 < x -> x <> 1 -> 1 - / x < ln x.
Proof.
  intros. assert (/ x <> 1) by (intro E; apply H0; rewrite <- (Rinv_inv x), E; apply Rinv_1).
  pose proof (ln_lt_minus1 (/ x) (Rinv_0_lt_compat _ H) H1).
  rewrite ln_Rinv in H2 by auto. lra.
Qed.

Lemma ln2_pos : 0 < ln 2.
Proof. rewrite <- ln_1. apply ln_increasing; lra. Qed.

Lemma ln_div : forall x y, 0 < x -> 0 < y -> ln (x / y) = ln x - ln y.
Proof. intros. unfold Rdiv. rewrite ln_mult, ln_Rinv; auto. apply Rinv_0_lt_compat; auto. Qed.

(** ** C26: topsoe, jensenshannon, probsymmetric *)

Definition topsoe_term (e a b : R) : R :=
  a * ln ((2 * a + e) / (a + b + e)) + b * ln ((2 * b + e) / (a + b + e)).

Lemma oln_pos : forall x, 0 < x -> oln x = Val (ln x).
Proof. intros. unfold oln. destruct (Rlt_dec 0 x); [auto|lra]. Qed.

Lemma odiv_nz : forall x y, y <> 0 -> odiv x y = Val (x / y).
Proof. intros. unfold odiv. destruct (Req_EM_T y 0); [congruence|auto]. Qed.

Lemma topsoe_val : forall e p q, 0 < e -> length p = length q -> p <> [] ->
  Forall (fun x => 0 <= x) p -> Forall (fun x => 0 <= x) q ->
  topsoe e (vec p) (vec q) = Val (dsum (topsoe_term e) p q).
Proof.
  intros. unfold topsoe. rewrite checked_vec by auto.
  rewrite (osum_val _ (topsoe_term e)).
  - rewrite rsum_vmap2; auto.
  - intros a b Hin. destruct (Forall_combine _ _ _ _ _ _ H2 H3 Hin) as [Ha Hb].
    rewrite !odiv_nz by lra. cbn [obind].
    rewrite !oln_pos by (apply Rdiv_lt_0_compat; lra). reflexivity.
Qed.

Definition js_term (e a b : R) : R :=
  a * ln (a + e) + b * ln (b + e) - (a + b) * ln ((a + b + e) / 2).

Lemma js_val : forall e p q, 0 < e -> length p = length q -> p <> [] ->
  Forall (fun x => 0 <= x) p -> Forall (fun x => 0 <= x) q ->
  jensenshannon e (vec p) (vec q) = Val (dsum (js_term e) p q / 2).
Proof.
  intros. unfold jensenshannon. rewrite checked_vec by auto.
  rewrite (osum_val _ (js_term e)).
  - simpl. rewrite rsum_vmap2; auto.
  - intros a b Hin. destruct (Forall_combine _ _ _ _ _ _ H2 H3 Hin) as [Ha Hb].
    rewrite !oln_pos by lra. reflexivity.
Qed.

Lemma ps_val : forall e p q, 0 < e -> length p = length q -> p <> [] ->
  Forall (fun x => 0 <= x) p -> Forall (fun x => 0 <= x) q ->
  probsymmetric e (vec p) (vec q) = Val (2 * dsum (fun a b => (a - b) ^ 2 / (b + a + e)) p q).
Proof.
  intros. unfold probsymmetric. rewrite checked_vec by auto.
  rewrite (osum_val _ (fun a b => (a - b) ^ 2 / (b + a + e))).
  - simpl. rewrite rsum_vmap2; auto.
  - intros a b Hin. destruct (Forall_combine _ _ _ _ _ _ H2 H3 Hin) as [Ha Hb].
    rewrite !odiv_nz by lra. reflexivity.
Qed.

Lemma topsoe_term_pos : forall e a b, 0 < e -> 0 <= a -> 0 <= b ->
  0 <= topsoe_term e a b /\ (topsoe_term e a b = 0 -> a = b).
Proof.
  intros e a b He Ha Hb. unfold topsoe_term.
  set (P := 2 * a + e). set (Q := 2 * b + e). set (M := a + b + e).
  assert (HP : 0 < P) by (unfold P; lra). assert (HQ : 0 < Q) by (unfold Q; lra).
  assert (HM : 0 < M) by (unfold M; lra). assert (HPQ : P + Q = 2 * M) by (unfold P, Q, M; lra).
  replace (a * ln (P / M) + b * ln (Q / M)) with
    (/2 * (P * ln (P / M) + Q * ln (Q / M)) - e / 2 * (ln (P / M) + ln (Q / M)))
    by (unfold P, Q; field).
  assert (Hprod : ln (P / M) + ln (Q / M) <= 0).
  { pose proof (ln_le_minus1 (P / M) (Rdiv_lt_0_compat _ _ HP HM)).
    pose proof (ln_le_minus1 (Q / M) (Rdiv_lt_0_compat _ _ HQ HM)).
    assert (P / M + Q / M = 2). { rewrite <- Rdiv_plus_distr, HPQ. field; lra. } lra. }
  assert (Hterm : forall X, 0 < X -> X - M <= X * ln (X / M)).
  { intros X HX. pose proof (ln_ge (X / M) (Rdiv_lt_0_compat _ _ HX HM)).
    apply (Rmult_le_compat_l X) in H; [|lra].
    replace (X * (1 - / (X / M))) with (X - M) in H by (field; lra). auto. }
  pose proof (Hterm P HP). pose proof (Hterm Q HQ).
  assert (0 <= e / 2 * - (ln (P / M) + ln (Q / M))) by (apply Rmult_le_pos; lra).
  split.
  - lra.
  - intros E. destruct (Req_dec a b) as [|Hne]; auto. exfalso.
    assert (HX : P / M <> 1).
    { intro E1. assert (P = M) by (apply (Rmult_eq_compat_r M) in E1; unfold Rdiv in E1;
        rewrite Rmult_assoc, Rinv_l in E1 by lra; lra). unfold P, M in H2. lra. }
    pose proof (ln_gt (P / M) (Rdiv_lt_0_compat _ _ HP HM) HX) as Hs.
    apply (Rmult_lt_compat_l P) in Hs; auto.
    replace (P * (1 - / (P / M))) with (P - M) in Hs by (field; lra). lra.
Qed.

Lemma dsum_zero_terms : forall f p q, length p = length q ->
  Forall (fun x => 0 <= x) p -> Forall (fun x => 0 <= x) q ->
  (forall a b, 0 <= a -> 0 <= b -> 0 <= f a b /\ (f a b = 0 -> a = b)) ->
  0 <= dsum f p q /\ (dsum f p q = 0 -> p = q).
Proof.
  intros. assert (forall i, 0 <= f (nth i p 0) (nth i q 0)).
  { intros. apply H2; apply nth_distribution_nonneg; auto. }
  split.
  - apply sumn_nonneg. auto.
  - intros E. apply list_eq_nth; auto. intros i Hi.
    apply H2; try (apply nth_distribution_nonneg; auto).
    apply (sumn_zero_all (length p) (fun i => f (nth i p 0) (nth i q 0))); auto.
Qed.

Lemma topsoe_divergence : forall e n p q, 0 < e -> (0 < n)%nat -> length p = n -> length q = n ->
  Forall (fun x => 0 <= x) p -> Forall (fun x => 0 <= x) q ->
  exists v, topsoe e (vec p) (vec q) = Val v /\ topsoe e (vec q) (vec p) = Val v /\
    0 <= v /\ (v = 0 <-> p = q).
Proof.
  intros e n p q He Hn Hp Hq Pp Pq. exists (dsum (topsoe_term e) p q).
  destruct (dsum_zero_terms (topsoe_term e) p q ltac:(lia) Pp Pq (fun a b => topsoe_term_pos e a b He)) as [H1 H2].
  split; [apply topsoe_val; auto; [lia|dist_nonempty n]|].
  split; [rewrite topsoe_val by (auto; solve [lia|dist_nonempty n]); f_equal; apply dsum_swap; [lia|];
          intros; unfold topsoe_term; rewrite (Rplus_comm b a); ring|].
  split; auto. split; auto. intros; subst q. unfold dsum. apply sumn_0. intros i Hi.
  unfold topsoe_term. pose proof (nth_distribution_nonneg p i Pp).
  replace ((2 * nth i p 0 + e) / (nth i p 0 + nth i p 0 + e)) with 1 by (field; lra). rewrite ln_1; ring.
Qed.

Lemma ps_term_pos : forall e a b, 0 < e -> 0 <= a -> 0 <= b ->
  0 <= (a - b) ^ 2 / (b + a + e) /\ ((a - b) ^ 2 / (b + a + e) = 0 -> a = b).
Proof.
  intros. assert (0 < / (b + a + e)) by (apply Rinv_0_lt_compat; lra). split.
  - apply Rmult_le_pos; [apply pow2_ge_0|lra].
  - intros E. unfold Rdiv in E. apply Rmult_integral in E. destruct E; [nra|lra].
Qed.

Lemma ps_divergence : forall e n p q, 0 < e -> (0 < n)%nat -> length p = n -> length q = n ->
  Forall (fun x => 0 <= x) p -> Forall (fun x => 0 <= x) q ->
  exists v, probsymmetric e (vec p) (vec q) = Val v /\ probsymmetric e (vec q) (vec p) = Val v /\
    0 <= v /\ (v = 0 <-> p = q).
Proof.
  intros e n p q He Hn Hp Hq Pp Pq. exists (2 * dsum (fun a b => (a - b) ^ 2 / (b + a + e)) p q).
  destruct (dsum_zero_terms (fun a b => (a - b) ^ 2 / (b + a + e)) p q ltac:(lia) Pp Pq (fun a b => ps_term_pos e a b He)) as [H1 H2].
  split; [apply ps_val; auto; [lia|dist_nonempty n]|].
  split; [rewrite ps_val by (auto; solve [lia|dist_nonempty n]); do 2 f_equal; apply dsum_swap; [lia|];
          intros; rewrite (Rplus_comm b a); f_equal; ring|].
  split; [lra|]. split; [intros; apply H2; lra|]. intros; subst q. unfold dsum. rewrite sumn_0; [lra|]. intros i Hi.
  unfold Rdiv. ring.
Qed.

(** Jensen-Shannon is half of Topsoe up to the smoothing. *)
Lemma js_topsoe_term : forall e a b, 0 < e -> 0 <= a -> 0 <= b ->
  0 <= js_term e a b - topsoe_term e a b <= e.
Proof.
  intros e a b He Ha Hb. unfold js_term, topsoe_term.
  assert (Hx : forall x, 0 <= x -> 0 <= x * ln (x + e) - x * ln (x + e / 2) <= e / 2).
  { intros x Hx. rewrite <- Rmult_minus_distr_l, <- ln_div by lra.
    assert (0 < (x + e) / (x + e / 2)) by (apply Rdiv_lt_0_compat; lra).
    pose proof (ln_le_minus1 _ H). pose proof (ln_ge _ H).
    assert (E : (x + e) / (x + e / 2) - 1 = (e / 2) / (x + e / 2)) by (field; lra).
    assert (E2 : 1 - / ((x + e) / (x + e / 2)) = (e / 2) / (x + e)) by (field; lra).
    rewrite E in H0. rewrite E2 in H1.
    assert (0 < (e / 2) / (x + e)) by (apply Rdiv_lt_0_compat; lra).
    split; [apply Rmult_le_pos; lra|].
    apply Rle_trans with (x * (e / 2 / (x + e / 2))); [apply Rmult_le_compat_l; auto|].
    apply (Rmult_le_reg_r (x + e / 2)); [lra|].
    replace (x * (e / 2 / (x + e / 2)) * (x + e / 2)) with (x * (e / 2)) by (field; lra). nra. }
  assert (Hl : forall x, 0 <= x -> ln ((2 * x + e) / (a + b + e)) = ln (x + e / 2) - ln ((a + b + e) / 2)).
  { intros. rewrite <- ln_div by lra. f_equal. field. lra. }
  rewrite !Hl by auto. pose proof (Hx a Ha). pose proof (Hx b Hb). lra.
Qed.

Lemma js_properties : forall e n p q, 0 < e -> (0 < n)%nat -> length p = n -> length q = n ->
  Forall (fun x => 0 <= x) p -> Forall (fun x => 0 <= x) q ->
  exists v t, jensenshannon e (vec p) (vec q) = Val v /\ jensenshannon e (vec q) (vec p) = Val v /\
    0 <= v /\ topsoe e (vec p) (vec q) = Val t /\ 0 <= v - t / 2 <= INR n * e / 2.
Proof.
  intros e n p q He Hn Hp Hq Pp Pq. exists (dsum (js_term e) p q / 2), (dsum (topsoe_term e) p q).
  assert (Hd : 0 <= dsum (js_term e) p q - dsum (topsoe_term e) p q <= INR n * e).
  { unfold dsum. rewrite Hp, <- sumn_minus. split.
    - apply sumn_nonneg. intros. apply js_topsoe_term; auto; apply nth_distribution_nonneg; auto.
    - rewrite <- sumn_const. apply sumn_le. intros. apply js_topsoe_term; auto; apply nth_distribution_nonneg; auto. }
  destruct (dsum_zero_terms (topsoe_term e) p q ltac:(lia) Pp Pq (fun a b => topsoe_term_pos e a b He)) as [H1 _].
  split; [apply js_val; auto; [lia|dist_nonempty n]|].
  split; [rewrite js_val by (auto; solve [lia|dist_nonempty n]); do 2 f_equal; apply dsum_swap; [lia|];
          intros; unfold js_term; rewrite (Rplus_comm b a); ring|].
  split; [lra|]. split; [apply topsoe_val; auto; [lia|dist_nonempty n]|]. lra.
Qed.

(** jensenshannon of a vector with itself is not 0 (for positive entries). *)
Lemma js_self_positive : forall e n p, 0 < e -> distribution_over n p ->
  exists v, jensenshannon e (vec p) (vec p) = Val v /\ 0 < v.
Proof.
  intros e n p He Dp. pose proof (dist_nonempty _ _ Dp) as Hn. pose proof Dp as [Hp [Pp Sp]].
  exists (dsum (js_term e) p p / 2). split; [apply js_val; auto; dist_nonempty n|].
  assert (Hnn : forall x, 0 <= x -> 0 <= js_term e x x).
  { intros x Hx. pose proof (js_topsoe_term e x x He Hx Hx). pose proof (topsoe_term_pos e x x He Hx Hx). lra. }
  assert (Hpos : forall x, 0 < x -> 0 < js_term e x x).
  { intros x Hx. unfold js_term. replace (x * ln (x + e) + x * ln (x + e) - (x + x) * ln ((x + x + e) / 2))
      with (2 * x * (ln (x + e) - ln ((x + x + e) / 2))) by ring.
    apply Rmult_lt_0_compat; [lra|]. apply Rlt_Rminus. apply ln_increasing; lra. }
  assert (Hex : exists i, (i < n)%nat /\ 0 < nth i p 0).
  { destruct (List.existsb (fun i => if Rlt_dec 0 (nth i p 0) then true else false) (seq 0 n)) eqn:E.
    - apply existsb_exists in E. destruct E as [i [Hi E]]. apply in_seq in Hi.
      destruct (Rlt_dec 0 (nth i p 0)); [|discriminate]. exists i; split; [lia|auto].
    - exfalso. rewrite <- (sumn_nth p), Hp in Sp. rewrite sumn_0 in Sp; [lra|]. intros i Hi.
      assert (Hf : (if Rlt_dec 0 (nth i p 0) then true else false) = false).
      { destruct (if Rlt_dec 0 (nth i p 0) then true else false) eqn:E2; auto.
        assert (existsb (fun i => if Rlt_dec 0 (nth i p 0) then true else false) (seq 0 n) = true).
        { apply existsb_exists. exists i. split; auto. apply in_seq; lia. } congruence. }
      destruct (Rlt_dec 0 (nth i p 0)); [discriminate|]. pose proof (nth_distribution_nonneg p i Pp). lra. }
  destruct Hex as [i [Hi Hpi]].
  assert (js_term e (nth i p 0) (nth i p 0) <= dsum (js_term e) p p).
  { unfold dsum. rewrite Hp.
    apply (sumn_ge_term n (fun i => js_term e (nth i p 0) (nth i p 0))); auto.
    intros. apply Hnn, nth_distribution_nonneg; auto. }
  pose proof (Hpos _ Hpi). lra.
Qed.

Lemma topsoe_upper : forall e n p q, 0 < e -> distribution_over n p -> distribution_over n q ->
  exists v, topsoe e (vec p) (vec q) = Val v /\ 0 <= v < 2 * ln 2.
Proof.
  intros e n p q He Dp Dq. pose proof (dist_nonempty _ _ Dp) as Hn.
  pose proof Dp as [Hp [Pp Sp]]. pose proof Dq as [Hq [Pq Sq]].
  exists (dsum (topsoe_term e) p q). split; [apply topsoe_val; auto; [lia|dist_nonempty n]|].
  destruct (dsum_zero_terms (topsoe_term e) p q ltac:(lia) Pp Pq (fun a b => topsoe_term_pos e a b He)) as [H1 _].
  split; auto.
  (* every term is at most (a+b)(ln 2 - d) for a positive d *)
  assert (Hterm : forall x y, 0 <= x <= 1 -> 0 <= y <= 1 ->
     x * ln ((2 * x + e) / (x + y + e)) <= x * ln ((2 + e) / (1 + e))).
  { intros x y Hx Hy. apply Rmult_le_compat_l; [lra|].
    destruct (Req_dec ((2 * x + e) / (x + y + e)) ((2 + e) / (1 + e))) as [->|Hne]; [lra|].
    left. apply ln_increasing; [apply Rdiv_lt_0_compat; lra|].
    assert ((2 * x + e) / (x + y + e) <= (2 + e) / (1 + e)); [|lra].
    apply (Rmult_le_reg_r ((x + y + e) * (1 + e))); [apply Rmult_lt_0_compat; lra|].
    replace ((2 * x + e) / (x + y + e) * ((x + y + e) * (1 + e))) with ((2 * x + e) * (1 + e)) by (field; lra).
    replace ((2 + e) / (1 + e) * ((x + y + e) * (1 + e))) with ((2 + e) * (x + y + e)) by (field; lra). nra. }
  assert (Hc : ln ((2 + e) / (1 + e)) < ln 2).
  { apply ln_increasing; [apply Rdiv_lt_0_compat; lra|].
    apply (Rmult_lt_reg_r (1 + e)); [lra|]. replace ((2 + e) / (1 + e) * (1 + e)) with (2 + e) by (field; lra). lra. }
  assert (dsum (topsoe_term e) p q <= 2 * ln ((2 + e) / (1 + e))); [|lra].
  unfold dsum. rewrite Hp.
  apply Rle_trans with (sumn n (fun i => (nth i p 0 + nth i q 0) * ln ((2 + e) / (1 + e)))).
  - apply sumn_le. intros i Hi. unfold topsoe_term.
    pose proof (nth_dist n p i Dp) as Ha. pose proof (nth_dist n q i Dq) as Hb.
    pose proof (Hterm _ _ Ha Hb). pose proof (Hterm _ _ Hb Ha).
    rewrite (Rplus_comm (nth i q 0) (nth i p 0)) in H0. lra.
  - rewrite sumn_scal_r, sumn_plus, (sumn_dist n p), (sumn_dist n q) by auto. lra.
Qed.

Lemma ps_upper : forall e n p q, 0 < e -> distribution_over n p -> distribution_over n q ->
  exists v, probsymmetric e (vec p) (vec q) = Val v /\ 0 <= v <= 4 / (1 + e).
Proof.
  intros e n p q He Dp Dq. pose proof (dist_nonempty _ _ Dp) as Hn.
  pose proof Dp as [Hp [Pp Sp]]. pose proof Dq as [Hq [Pq Sq]].
  exists (2 * dsum (fun a b => (a - b) ^ 2 / (b + a + e)) p q).
  destruct (dsum_zero_terms (fun a b => (a - b) ^ 2 / (b + a + e)) p q ltac:(lia) Pp Pq (fun a b => ps_term_pos e a b He)) as [H1 _].
  split; [apply ps_val; auto; [lia|dist_nonempty n]|]. split; [lra|].
  assert (dsum (fun a b => (a - b) ^ 2 / (b + a + e)) p q <= 2 / (1 + e)); [|lra].
  unfold dsum. rewrite Hp.
  apply Rle_trans with (sumn n (fun i => (nth i p 0 + nth i q 0) / (1 + e))).
  - apply sumn_le. intros i Hi. pose proof (nth_dist n p i Dp) as Ha. pose proof (nth_dist n q i Dq) as Hb.
    set (a := nth i p 0) in *. set (b := nth i q 0) in *.
    apply (Rmult_le_reg_r ((b + a + e) * (1 + e))); [apply Rmult_lt_0_compat; lra|].
    replace ((a - b) ^ 2 / (b + a + e) * ((b + a + e) * (1 + e))) with ((a - b)^2 * (1 + e)) by (field; lra).
    replace ((a + b) / (1 + e) * ((b + a + e) * (1 + e))) with ((a + b) * (b + a + e)) by (field; lra).
    assert ((a - b) ^ 2 <= a + b) by nra. nra.
  - rewrite sumn_div, sumn_plus, (sumn_dist n p), (sumn_dist n q) by auto. lra.
Qed.

(** ** C25: kld *)

Lemma olog2_pos : forall x, 0 < x -> olog2 x = Val (ln x / ln 2).
Proof. intros. unfold olog2. rewrite oln_pos by auto. auto. Qed.

Lemma kld_val : forall e p q, 0 < e -> length p = length q -> p <> [] ->
  Forall (fun x => 0 < x) p -> Forall (fun x => 0 <= x) q ->
  kld e (vec p) (vec q) = Val (dsum (fun a b => a * (ln (a / (b + e)) / ln 2)) p q).
Proof.
  intros. unfold kld. rewrite checked_vec by auto.
  rewrite (osum_val _ (fun a b => a * (ln (a / (b + e)) / ln 2))).
  - rewrite rsum_vmap2; auto.
  - intros a b Hin. destruct (Forall_combine _ _ _ _ _ _ H2 H3 Hin) as [Ha Hb]. simpl in *.
    rewrite !odiv_nz by lra. cbn [obind]. rewrite olog2_pos by (apply Rdiv_lt_0_compat; lra). reflexivity.
Qed.

(** Gibbs: on distributions kld is at least -log2(1 + n eps). *)
Lemma kld_lower : forall e n p q, 0 < e -> distribution_over n p -> distribution_over n q ->
  Forall (fun x => 0 < x) p ->
  exists v, kld e (vec p) (vec q) = Val v /\ - (ln (1 + INR n * e) / ln 2) <= v.
Proof.
  intros e n p q He Dp Dq Pp. pose proof (dist_nonempty _ _ Dp) as Hn.
  pose proof Dp as [Hp [_ Sp]]. pose proof Dq as [Hq [Pq Sq]].
  exists (dsum (fun a b => a * (ln (a / (b + e)) / ln 2)) p q).
  split; [apply kld_val; auto; [lia|dist_nonempty n]|].
  pose proof ln2_pos. pose proof (INR_pos n Hn).
  set (Z := 1 + INR n * e). assert (HZ : 0 < Z) by (unfold Z; nra).
  assert (Hsum : - ln Z <= sumn n (fun i => nth i p 0 * ln (nth i p 0 / (nth i q 0 + e)))).
  { apply Rle_trans with (sumn n (fun i => nth i p 0 * (- ln Z) + (nth i p 0 - (nth i q 0 + e) / Z))).
    - rewrite sumn_plus, sumn_scal_r, sumn_minus, sumn_div, sumn_plus, sumn_const,
        (sumn_dist n p), (sumn_dist n q) by auto.
      unfold Z. assert ((1 + INR n * e) / (1 + INR n * e) = 1) by (field; unfold Z in *; lra). lra.
    - apply sumn_le. intros i Hi.
      assert (Ha : 0 < nth i p 0). { rewrite Forall_forall in Pp. apply Pp, nth_In. lia. }
      assert (Hb : 0 <= nth i q 0) by (apply nth_distribution_nonneg; auto).
      set (a := nth i p 0) in *. set (b := nth i q 0) in *.
      assert (Hr : 0 < a / ((b + e) / Z)) by (apply Rdiv_lt_0_compat; [auto|apply Rdiv_lt_0_compat; lra]).
      pose proof (ln_ge _ Hr).
      replace (a / (b + e)) with ((a / ((b + e) / Z)) / Z) by (field; lra).
      rewrite ln_div by auto.
      apply (Rmult_le_compat_l a) in H1; [|lra].
      replace (a * (1 - / (a / ((b + e) / Z)))) with (a - (b + e) / Z) in H1 by (field; lra). lra. }
  unfold dsum. rewrite Hp.
  rewrite (sumn_ext n _ (fun i => (nth i p 0 * ln (nth i p 0 / (nth i q 0 + e))) / ln 2)) by (intros; field; lra).
  rewrite sumn_div. unfold Rdiv. rewrite <- Ropp_mult_distr_l_reverse.
  apply Rmult_le_compat_r; [left; apply Rinv_0_lt_compat; auto|auto].
Qed.

Lemma kld_self_negative : forall e n p, 0 < e -> distribution_over n p -> Forall (fun x => 0 < x) p ->
  exists v, kld e (vec p) (vec p) = Val v /\ v < 0.
Proof.
  intros e n p He Dp Pp. pose proof (dist_nonempty _ _ Dp) as Hn.
  pose proof Dp as [Hp [Pq Sp]].
  exists (dsum (fun a b => a * (ln (a / (b + e)) / ln 2)) p p).
  split; [apply kld_val; auto; dist_nonempty n|].
  pose proof ln2_pos.
  assert (Ht : forall i, (i < n)%nat -> nth i p 0 * (ln (nth i p 0 / (nth i p 0 + e)) / ln 2) < 0).
  { intros i Hi. assert (Ha : 0 < nth i p 0). { rewrite Forall_forall in Pp. apply Pp, nth_In. lia. }
    assert (ln (nth i p 0 / (nth i p 0 + e)) < 0).
    { apply Rlt_le_trans with (ln 1); [|rewrite ln_1; lra].
      apply ln_increasing; [apply Rdiv_lt_0_compat; lra|].
      apply (Rmult_lt_reg_r (nth i p 0 + e)); [lra|].
      replace (nth i p 0 / (nth i p 0 + e) * (nth i p 0 + e)) with (nth i p 0) by (field; lra). lra. }
    assert (ln (nth i p 0 / (nth i p 0 + e)) / ln 2 < 0).
    { unfold Rdiv at 1. pose proof (Rinv_0_lt_compat _ H). nra. }
    nra. }
  unfold dsum. rewrite Hp. destruct n as [|m]; [lia|]. cbn [sumn].
  assert (sumn m (fun i => nth i p 0 * (ln (nth i p 0 / (nth i p 0 + e)) / ln 2)) <= 0).
  { apply Rle_trans with (sumn m (fun _ => 0)); [|rewrite sumn_0; auto; lra]. apply sumn_le. intros i Hi. left. apply Ht; lia. }
  pose proof (Ht m ltac:(lia)). lra.
Qed.

Lemma osum_nan : forall l, Forall (fun o => (exists x, o = Val x) \/ o = NotANumber) l -> In NotANumber l ->
  osum l = NotANumber.
Proof.
  induction 1; simpl; intros; [tauto|].
  destruct H as [[v ->]| ->]; [|auto]. destruct H1; [discriminate|].
  simpl. rewrite IHForall; auto.
Qed.

Lemma map2_in : forall {A B C} (f : A -> B -> C) p q x, In x (map2 f p q) ->
  exists a b, In a p /\ In b q /\ x = f a b.
Proof.
  induction p; destruct q; simpl; intros; try tauto.
  destruct H; [exists a, b; auto|]. destruct (IHp q x H) as [a' [b' [H1 [H2 H3]]]].
  exists a', b'; auto.
Qed.

Lemma map2_nth_in : forall {A B C} (f : A -> B -> C) p q i da db, length p = length q ->
  (i < length p)%nat -> In (f (nth i p da) (nth i q db)) (map2 f p q).
Proof.
  induction p; destruct q; simpl; intros; try discriminate; try lia.
  destruct i; auto. right. apply IHp; auto; lia.
Qed.

Lemma kld_zero_undefined : forall e p q, 0 < e -> length p = length q ->
  Forall (fun x => 0 <= x) p -> Forall (fun x => 0 <= x) q -> In 0 p ->
  kld e (vec p) (vec q) = NotANumber.
Proof.
  intros e p q He Hl Pp Pq H0. unfold kld. rewrite checked_vec; [|auto|intro; subst; destruct H0].
  apply osum_nan.
  - apply Forall_forall. intros o Ho. apply map2_in in Ho. destruct Ho as [a [b [Ha [Hb ->]]]].
    rewrite Forall_forall in Pp, Pq. specialize (Pp a Ha). specialize (Pq b Hb).
    rewrite odiv_nz by lra. cbn [obind]. unfold olog2, oln.
    destruct (Rlt_dec 0 (a / (b + e))); simpl; [left; eexists; eauto|auto].
  - apply (In_nth _ _ 0) in H0. destruct H0 as [i [Hi E]].
    set (f := fun a b => _). pose proof (map2_nth_in f p q i 0 0 Hl Hi) as HI. rewrite E in HI.
    assert (f 0 (nth i q 0) = NotANumber); [|congruence].
    unfold f. pose proof (nth_distribution_nonneg q i Pq). rewrite odiv_nz by lra. cbn [obind].
    unfold olog2, oln. replace (0 / (nth i q 0 + e)) with 0 by (field; lra).
    destruct (Rlt_dec 0 0); [lra|auto].
Qed.

(** ** C27: optimal transport *)

Definition ind (b : bool) : R := if b then 1 else 0.

Lemma ind_sum_lt : forall n i, (i <= n)%nat -> sumn n (fun k => ind (Nat.ltb k i)) = INR i.
Proof.
  intros. replace n with (i + (n - i))%nat by lia. rewrite sumn_split.
  rewrite (sumn_ext i _ (fun _ => 1)).
  2:{ intros. unfold ind. destruct (Nat.ltb_spec i0 i); [auto|lia]. }
  rewrite sumn_const. rewrite sumn_0; [lra|].
  intros. unfold ind. destruct (Nat.ltb_spec (i + i0) i); [lia|auto].
Qed.

(** |i - j| counts the classes k crossed. *)
Lemma crossing : forall n i j, (i < n)%nat -> (j < n)%nat ->
  sumn n (fun k => Rabs (ind (Nat.leb i k) - ind (Nat.leb j k))) = Rabs (INR i - INR j).
Proof.
  intros. destruct (Nat.le_ge_cases i j).
  - rewrite (sumn_ext n _ (fun k => ind (Nat.ltb k j) - ind (Nat.ltb k i))).
    + rewrite sumn_minus, !ind_sum_lt by lia. rewrite Rabs_minus_sym, Rabs_right; auto.
      apply Rle_ge. apply le_INR in H1. lra.
    + intros k Hk. unfold ind.
      destruct (Nat.leb_spec i k); destruct (Nat.leb_spec j k); destruct (Nat.ltb_spec k j); destruct (Nat.ltb_spec k i); try lia;
      first [rewrite Rabs_right; lra | rewrite Rabs_left; lra].
  - rewrite (sumn_ext n _ (fun k => ind (Nat.ltb k i) - ind (Nat.ltb k j))).
    + rewrite sumn_minus, !ind_sum_lt by lia. rewrite Rabs_right; auto.
      apply Rle_ge. apply le_INR in H1. lra.
    + intros k Hk. unfold ind.
      destruct (Nat.leb_spec i k); destruct (Nat.leb_spec j k); destruct (Nat.ltb_spec k j); destruct (Nat.ltb_spec k i); try lia;
      first [rewrite Rabs_right; lra | rewrite Rabs_left; lra].
Qed.

Lemma cum_ind : forall n p k, (k < n)%nat -> cum p k = sumn n (fun i => ind (Nat.leb i k) * nth i p 0).
Proof.
  intros. unfold cum. replace n with (S k + (n - S k))%nat by lia. rewrite sumn_split.
  rewrite (sumn_0 (n - S k)).
  - rewrite Rplus_0_r. apply sumn_ext. intros. unfold ind. destruct (Nat.leb_spec i k); [lra|lia].
  - intros. unfold ind. destruct (Nat.leb_spec (S k + i) k); [lia|lra].
Qed.

Lemma cum_diff_plan : forall n p q T k, transport_plan n p q T -> (k < n)%nat ->
  cum p k - cum q k = sumn n (fun i => sumn n (fun j => T i j * (ind (Nat.leb i k) - ind (Nat.leb j k)))).
Proof.
  intros n p q T k [Hnn [Hr Hc]] Hk. rewrite (cum_ind n p k), (cum_ind n q k) by auto.
  rewrite (sumn_ext n (fun i => ind (Nat.leb i k) * nth i p 0)
    (fun i => sumn n (fun j => T i j * ind (Nat.leb i k)))).
  2:{ intros i Hi. rewrite <- Hr by auto. rewrite (sumn_scal_r n _ (fun j => T i j)). apply Rmult_comm. }
  rewrite (sumn_ext n (fun i => ind (Nat.leb i k) * nth i q 0)
    (fun j => sumn n (fun i => T i j * ind (Nat.leb j k)))).
  2:{ intros j Hj. rewrite <- Hc by auto. rewrite (sumn_scal_r n _ (fun i => T i j)). apply Rmult_comm. }
  rewrite (sumn_swap n n (fun j i => T i j * ind (Nat.leb j k))).
  rewrite <- sumn_minus. apply sumn_ext. intros i Hi. rewrite <- sumn_minus. apply sumn_ext. intros. ring.
Qed.

Definition emd_value (n : nat) (p q : list R) : R := sumn n (fun k => Rabs (cum p k - cum q k)).

Lemma emd_lower : forall n p q T, transport_plan n p q T -> emd_value n p q <= transport_cost n T.
Proof.
  intros n p q T HT. unfold emd_value, transport_cost.
  apply Rle_trans with (sumn n (fun k => sumn n (fun i => sumn n (fun j =>
     T i j * Rabs (ind (Nat.leb i k) - ind (Nat.leb j k)))))).
  - apply sumn_le. intros k Hk. rewrite (cum_diff_plan n p q T k HT Hk).
    eapply Rle_trans; [apply sumn_Rabs_le|]. apply sumn_le. intros i Hi.
    eapply Rle_trans; [apply sumn_Rabs_le|]. apply sumn_le. intros j Hj.
    rewrite Rabs_mult, (Rabs_right (T i j)); [lra|]. apply Rle_ge. apply HT; auto.
  - rewrite sumn_swap. right. apply sumn_ext. intros i Hi. rewrite sumn_swap. apply sumn_ext. intros j Hj.
    rewrite sumn_scal, crossing; auto.
Qed.

(** The monotone plan: overlap of the quantile intervals. *)
Definition before (p : list R) (i : nat) : R := sumn i (fun k => nth k p 0).
Definition clamp (lo hi x : R) : R := Rmin (Rmax x lo) hi.
Definition monotone_plan (p q : list R) (i j : nat) : R :=
  clamp (before p i) (before p (S i)) (before q (S j)) - clamp (before p i) (before p (S i)) (before q j).

Ltac minmax := unfold clamp, Rmin, Rmax;
  repeat match goal with
         | |- context [Rle_dec ?x ?y] =>
             lazymatch x with context [Rle_dec] => fail | _ => idtac end;
             lazymatch y with context [Rle_dec] => fail | _ => idtac end;
             destruct (Rle_dec x y)
         end.

Lemma clamp_sym : forall a b c d, a <= b -> c <= d ->
  clamp a b d - clamp a b c = clamp c d b - clamp c d a.
Proof. intros. minmax; lra. Qed.

Lemma before_mono : forall p i j, Forall (fun x => 0 <= x) p -> (i <= j)%nat -> before p i <= before p j.
Proof.
  intros. unfold before. replace j with (i + (j - i))%nat by lia. rewrite sumn_split.
  assert (0 <= sumn (j - i) (fun k => nth (i + k) p 0)); [|lra].
  apply sumn_nonneg. intros. apply nth_distribution_nonneg; auto.
Qed.

Lemma telescope : forall n f, sumn n (fun j => f (S j) - f j) = f n - f O.
Proof. induction n; simpl; intros; [lra|]. rewrite IHn. lra. Qed.

Lemma clamp_low : forall a b x, a <= b -> x <= a -> clamp a b x = a.
Proof. intros; minmax; lra. Qed.
Lemma clamp_high : forall a b x, a <= b -> b <= x -> clamp a b x = b.
Proof. intros; minmax; lra. Qed.

Lemma monotone_plan_sym : forall p q i j, Forall (fun x => 0 <= x) p -> Forall (fun x => 0 <= x) q ->
  monotone_plan p q i j = monotone_plan q p j i.
Proof.
  intros. unfold monotone_plan. apply clamp_sym; apply before_mono; auto.
Qed.

Lemma monotone_row : forall n p q i, Forall (fun x => 0 <= x) p -> Forall (fun x => 0 <= x) q ->
  before p n = before q n -> (i < n)%nat ->
  sumn n (fun j => monotone_plan p q i j) = nth i p 0.
Proof.
  intros. unfold monotone_plan.
  rewrite (telescope n (fun j => clamp (before p i) (before p (S i)) (before q j))).
  assert (before p i <= before p (S i)) by (apply before_mono; auto).
  rewrite clamp_high, clamp_low; auto.
  - unfold before. simpl. lra.
  - apply (before_mono p 0 i); auto; lia.
  - rewrite <- H1. apply before_mono; auto.
Qed.

Lemma monotone_is_plan : forall n p q, Forall (fun x => 0 <= x) p -> Forall (fun x => 0 <= x) q ->
  before p n = before q n -> transport_plan n p q (monotone_plan p q).
Proof.
  intros n p q Pp Pq Ht. split; [|split].
  - intros i j Hi Hj. unfold monotone_plan.
    pose proof (before_mono p i (S i) Pp ltac:(lia)). pose proof (before_mono q j (S j) Pq ltac:(lia)).
    minmax; lra.
  - intros i Hi. apply monotone_row; auto.
  - intros j Hj. rewrite (sumn_ext n _ (fun i => monotone_plan q p j i)).
    + apply monotone_row; auto.
    + intros. apply monotone_plan_sym; auto.
Qed.

(** Sum over the first rows of the clamp. *)
Lemma clamp_rows : forall p m x, Forall (fun x => 0 <= x) p -> 0 <= x ->
  sumn m (fun i => clamp (before p i) (before p (S i)) x - before p i) = Rmin x (before p m).
Proof.
  induction m; intros.
  - simpl. unfold before. simpl. rewrite Rmin_right; auto.
  - cbn [sumn]. rewrite IHm by auto.
    pose proof (before_mono p m (S m) H ltac:(lia)). pose proof (before_mono p 0 m H ltac:(lia)).
    change (before p 0) with 0 in H2. minmax; lra.
Qed.

(** Mass crossing from the classes <= k to the classes > k. *)
Lemma crossing_mass : forall n p q k, Forall (fun x => 0 <= x) p -> Forall (fun x => 0 <= x) q ->
  before p n = before q n -> (k < n)%nat ->
  sumn n (fun i => sumn n (fun j => monotone_plan p q i j * (ind (Nat.leb i k) * (1 - ind (Nat.leb j k))))) =
  Rmax (before p (S k) - before q (S k)) 0.
Proof.
  intros n p q k Pp Pq Ht Hk.
  assert (Hrow : forall i, (i < n)%nat ->
     sumn n (fun j => monotone_plan p q i j * (ind (Nat.leb i k) * (1 - ind (Nat.leb j k)))) =
     ind (Nat.leb i k) * (before p (S i) - clamp (before p i) (before p (S i)) (before q (S k)))).
  { intros i Hi.
    rewrite (sumn_ext n _ (fun j => ind (Nat.leb i k) * (monotone_plan p q i j * (1 - ind (Nat.leb j k))))) by (intros; ring).
    rewrite sumn_scal. f_equal.
    replace n with (S k + (n - S k))%nat by lia. rewrite sumn_split.
    rewrite sumn_0.
    2:{ intros j Hj. unfold ind. destruct (Nat.leb_spec j k); [ring|lia]. }
    rewrite (sumn_ext _ _ (fun j => monotone_plan p q i (S k + j))).
    2:{ intros j Hj. unfold ind. destruct (Nat.leb_spec (S k + j) k); [lia|ring]. }
    unfold monotone_plan.
    rewrite (sumn_ext _ _ (fun j => clamp (before p i) (before p (S i)) (before q (S k + S j)%nat) -
                                    clamp (before p i) (before p (S i)) (before q (S k + j)%nat)))
      by (intros; rewrite <- Nat.add_succ_r; auto).
    rewrite (telescope _ (fun j => clamp (before p i) (before p (S i)) (before q (S k + j)%nat))).
    rewrite Nat.add_0_r. replace (S k + (n - S k))%nat with n by lia.
    rewrite (clamp_high _ _ (before q n)); [lra| |].
    - apply before_mono; auto.
    - rewrite <- Ht. apply before_mono; auto. }
  rewrite (sumn_ext n _ _ Hrow).
  replace n with (S k + (n - S k))%nat by lia. rewrite sumn_split.
  rewrite (sumn_0 (n - S k)).
  2:{ intros i Hi. unfold ind. destruct (Nat.leb_spec (S k + i) k); [lia|ring]. }
  rewrite Rplus_0_r.
  rewrite (sumn_ext (S k) _ (fun i => (before p (S i) - before p i) -
     (clamp (before p i) (before p (S i)) (before q (S k)) - before p i))).
  2:{ intros i Hi. unfold ind. destruct (Nat.leb_spec i k); [lra|lia]. }
  rewrite sumn_minus. rewrite (telescope (S k) (before p)), clamp_rows; auto.
  - change (before p 0) with 0. minmax; lra.
  - apply (before_mono q 0 (S k)); auto; lia.
Qed.

Lemma monotone_cost : forall n p q, Forall (fun x => 0 <= x) p -> Forall (fun x => 0 <= x) q ->
  before p n = before q n -> transport_cost n (monotone_plan p q) = emd_value n p q.
Proof.
  intros n p q Pp Pq Ht. unfold transport_cost, emd_value.
  transitivity (sumn n (fun k => sumn n (fun i => sumn n (fun j =>
     monotone_plan p q i j * Rabs (ind (Nat.leb i k) - ind (Nat.leb j k)))))).
  - symmetry. rewrite sumn_swap. apply sumn_ext. intros i Hi. rewrite sumn_swap. apply sumn_ext. intros j Hj.
    rewrite sumn_scal, crossing; auto.
  - apply sumn_ext. intros k Hk.
    rewrite (sumn_ext n _ (fun i => sumn n (fun j => monotone_plan p q i j * (ind (Nat.leb i k) * (1 - ind (Nat.leb j k)))) +
       sumn n (fun j => monotone_plan p q i j * (ind (Nat.leb j k) * (1 - ind (Nat.leb i k)))))).
    2:{ intros i Hi. rewrite <- sumn_plus. apply sumn_ext. intros j Hj. unfold ind.
        destruct (Nat.leb i k); destruct (Nat.leb j k);
        rewrite ?Rminus_diag_eq, ?Rabs_R0 by auto; try ring;
        [replace (1 - 0) with 1 by ring; rewrite Rabs_R1; ring | rewrite Rabs_left by lra; ring]. }
    rewrite sumn_plus, crossing_mass by auto.
    rewrite (sumn_swap n n (fun i j => monotone_plan p q i j * (ind (Nat.leb j k) * (1 - ind (Nat.leb i k))))).
    rewrite (sumn_ext n _ (fun j => sumn n (fun i => monotone_plan q p j i * (ind (Nat.leb j k) * (1 - ind (Nat.leb i k)))))).
    2:{ intros j Hj. apply sumn_ext. intros i Hi. rewrite (monotone_plan_sym p q) by auto. auto. }
    rewrite crossing_mass by auto.
    change (cum p k) with (before p (S k)). change (cum q k) with (before q (S k)).
    unfold Rmax, Rabs. destruct (Rle_dec _ _); destruct (Rle_dec _ _); destruct (Rcase_abs _); lra.
Qed.

Lemma emd_optimal : forall n p q, length p = n -> length q = n -> (0 < n)%nat ->
  Forall (fun x => 0 <= x) p -> Forall (fun x => 0 <= x) q -> rsum p = rsum q ->
  exists v, emd (vec p) (vec q) = Val v /\
    (forall T, transport_plan n p q T -> v <= transport_cost n T) /\
    (exists T, transport_plan n p q T /\ transport_cost n T = v).
Proof.
  intros n p q Hp Hq Hn Pp Pq Hs.
  assert (Ht : before p n = before q n).
  { unfold before. rewrite <- Hp at 1. rewrite <- Hq. rewrite !sumn_nth. auto. }
  exists (emd_value n p q). split; [|split].
  - rewrite emd_val by (try lia; dist_nonempty n). unfold emd_value. rewrite Hp. auto.
  - intros. apply emd_lower; auto.
  - exists (monotone_plan p q). split; [apply monotone_is_plan; auto|apply monotone_cost; auto].
Qed.

(** ** C28: emd_score *)

Lemma product_plan : forall n p q, distribution_over n p -> distribution_over n q ->
  transport_plan n p q (fun i j => nth i p 0 * nth j q 0).
Proof.
  intros n p q Dp Dq. split; [|split].
  - intros. apply Rmult_le_pos; [apply (nth_dist n p i Dp)|apply (nth_dist n q j Dq)].
  - intros. rewrite sumn_scal, (sumn_dist n q) by auto. ring.
  - intros. rewrite sumn_scal_r, (sumn_dist n p) by auto. ring.
Qed.

Lemma left_mass_conc : forall n, left_mass n = concentrated n 0.
Proof. reflexivity. Qed.

Lemma right_mass_conc : forall n, (0 < n)%nat -> right_mass n = concentrated n (n - 1).
Proof.
  intros. unfold right_mass, concentrated. apply tabulate_ext. intros i Hi.
  destruct (Nat.eqb_spec (S i) n); destruct (Nat.eqb_spec i (n - 1)); auto; lia.
Qed.

(** The emd to a concentrated distribution is the mean distance to that class. *)
Lemma emd_concentrated : forall n p k, distribution_over n p -> (k < n)%nat ->
  emd_value n p (concentrated n k) = sumn n (fun i => nth i p 0 * Rabs (INR i - INR k)).
Proof.
  intros n p k Dp Hk. pose proof (concentrated_dist n k Hk) as Dk.
  apply Rle_antisym.
  - eapply Rle_trans; [apply (emd_lower n p _ _ (product_plan n p _ Dp Dk))|].
    unfold transport_cost. right. apply sumn_ext. intros i Hi.
    rewrite (sumn_single n k); auto.
    + rewrite concentrated_nth, Nat.eqb_refl by auto. ring.
    + intros j Hj Hne. rewrite concentrated_nth by auto. destruct (Nat.eqb_spec j k); [congruence|ring].
  - (* any plan to a concentrated distribution moves everything to k *)
    pose proof Dp as [Hp [Pp Sp]]. pose proof Dk as [Hk' [Pk Sk]].
    assert (Ht : before p n = before (concentrated n k) n).
    { unfold before. rewrite (sumn_dist n p), (sumn_dist n _ Dk) by auto. auto. }
    rewrite <- (monotone_cost n p (concentrated n k)) by auto.
    pose proof (monotone_is_plan n p (concentrated n k) Pp Pk Ht) as [Hnn [Hr Hc]].
    unfold transport_cost. apply sumn_le. intros i Hi.
    assert (Hz : forall j, (j < n)%nat -> j <> k -> monotone_plan p (concentrated n k) i j = 0).
    { intros j Hj Hne.
      apply (sumn_zero_all n (fun i => monotone_plan p (concentrated n k) i j)); auto.
      rewrite Hc by auto. rewrite concentrated_nth by auto. destruct (Nat.eqb_spec j k); [congruence|auto]. }
    rewrite (sumn_single n k); auto.
    + rewrite <- (Hr i Hi), (sumn_single n k); auto. lra.
    + intros j Hj Hne. rewrite Hz by auto. ring.
Qed.

Lemma abs_between : forall n i j, (2 <= n)%nat -> (i < n)%nat -> (j < n)%nat ->
  Rabs (INR i - INR j) * INR (n - 1) <= INR (n - 1 - j) * Rabs (INR i - 0) + INR j * Rabs (INR i - INR (n - 1)).
Proof.
  intros. assert (Hi : INR i <= INR (n - 1)) by (apply le_INR; lia). pose proof (pos_INR i).
  assert (Hj : INR j <= INR (n - 1)) by (apply le_INR; lia). pose proof (pos_INR j).
  rewrite (minus_INR (n - 1) j) by lia. set (m := INR (n - 1)) in *.
  rewrite (Rabs_right (INR i - 0)) by lra. rewrite (Rabs_minus_sym (INR i) m), (Rabs_right (m - INR i)) by lra.
  unfold Rabs. destruct (Rcase_abs (INR i - INR j)); nra.
Qed.

Lemma emd_max_extreme : forall n p q, (2 <= n)%nat -> distribution_over n p -> distribution_over n q ->
  emd_value n p q <= Rmax (emd_value n p (concentrated n 0)) (emd_value n p (concentrated n (n - 1))).
Proof.
  intros n p q Hn Dp Dq.
  eapply Rle_trans; [apply (emd_lower n p q _ (product_plan n p q Dp Dq))|].
  rewrite (emd_concentrated n p 0), (emd_concentrated n p (n - 1)) by (auto; lia).
  set (E0 := sumn n (fun i => nth i p 0 * Rabs (INR i - INR 0))).
  set (E1 := sumn n (fun i => nth i p 0 * Rabs (INR i - INR (n - 1)))).
  assert (Hm : 0 < INR (n - 1)) by (apply INR_pos; lia).
  unfold transport_cost. rewrite sumn_swap.
  apply Rle_trans with (sumn n (fun j => nth j q 0 * Rmax E0 E1)).
  2:{ rewrite sumn_scal_r, (sumn_dist n q) by auto. lra. }
  apply sumn_le. intros j Hj.
  rewrite (sumn_ext n _ (fun i => nth j q 0 * (nth i p 0 * Rabs (INR i - INR j)))) by (intros; ring).
  rewrite sumn_scal. apply Rmult_le_compat_l; [apply (nth_dist n q j Dq)|].
  assert (Hle : sumn n (fun i => nth i p 0 * Rabs (INR i - INR j)) * INR (n - 1) <= INR (n - 1 - j) * E0 + INR j * E1).
  { unfold E0, E1. rewrite <- sumn_scal_r, <- !sumn_scal, <- sumn_plus. apply sumn_le. intros i Hi.
    pose proof (abs_between n i j Hn Hi Hj). pose proof (nth_dist n p i Dp). change (INR 0) with 0. nra. }
  apply (Rmult_le_reg_r (INR (n - 1))); auto. eapply Rle_trans; [apply Hle|].
  rewrite (minus_INR (n - 1) j) by lia. pose proof (Rmax_l E0 E1). pose proof (Rmax_r E0 E1). pose proof (pos_INR j).
  assert (INR j <= INR (n - 1)) by (apply le_INR; lia). nra.
Qed.

Lemma emd_value_emd : forall n p q, length p = n -> length q = n -> (0 < n)%nat ->
  emd (vec p) (vec q) = Val (emd_value n p q).
Proof. intros. rewrite emd_val by (try lia; dist_nonempty n). unfold emd_value. rewrite H. auto. Qed.

Lemma emd_value_zero : forall n p q, length p = n -> length q = n -> (0 < n)%nat ->
  emd_value n p q = 0 -> p = q.
Proof.
  intros. destruct (emd_metric n H1) as [HM _]. destruct (HM p q H H0) as [v [E [_ [_ Hz]]]].
  rewrite (emd_value_emd n) in E by auto. inversion E; subst v. apply Hz; auto.
Qed.

Lemma max_emd_pos : forall n p, (2 <= n)%nat -> distribution_over n p ->
  0 < Rmax (emd_value n p (concentrated n 0)) (emd_value n p (concentrated n (n - 1))).
Proof.
  intros n p Hn Dp. rewrite (emd_concentrated n p 0), (emd_concentrated n p (n - 1)) by (auto; lia).
  set (E0 := sumn n _). set (E1 := sumn n _).
  assert (Hs : E0 + E1 = INR (n - 1)).
  { unfold E0, E1. rewrite <- sumn_plus.
    rewrite (sumn_ext n _ (fun i => nth i p 0 * INR (n - 1))).
    - rewrite sumn_scal_r, (sumn_dist n p) by auto. ring.
    - intros i Hi. pose proof (pos_INR i). assert (INR i <= INR (n - 1)) by (apply le_INR; lia).
      change (INR 0) with 0. rewrite Rabs_right by lra. rewrite Rabs_minus_sym, Rabs_right by lra. ring. }
  assert (0 < INR (n - 1)) by (apply INR_pos; lia). pose proof (Rmax_l E0 E1). pose proof (Rmax_r E0 E1). lra.
Qed.

Lemma emd_score_spec : forall n p q, (2 <= n)%nat -> distribution_over n p -> distribution_over n q ->
  exists s, emd_score p q = Val s /\ 0 <= s <= 1 /\ (s = 1 <-> p = q).
Proof.
  intros n p q Hn Dp Dq. pose proof Dp as [Hp _]. pose proof Dq as [Hq _].
  pose proof (emd_max_extreme n p q Hn Dp Dq) as Hle. pose proof (max_emd_pos n p Hn Dp) as Hpos.
  unfold emd_score. rewrite Hp, left_mass_conc, right_mass_conc by lia.
  rewrite !(emd_value_emd n) by (auto; try apply conc_len; lia). cbn [obind].
  set (M := Rmax _ _) in *. rewrite odiv_nz by lra.
  exists ((M - emd_value n p q) / M).
  assert (Hnn : 0 <= emd_value n p q) by (apply sumn_nonneg; intros; apply Rabs_pos).
  split; auto. split.
  - split.
    + apply Rmult_le_pos; [lra|left; apply Rinv_0_lt_compat; auto].
    + apply (Rmult_le_reg_r M); auto. replace ((M - emd_value n p q) / M * M) with (M - emd_value n p q) by (field; lra). lra.
  - split.
    + intros E. apply (emd_value_zero n); auto; [lia|].
      apply (Rmult_eq_compat_r M) in E. replace ((M - emd_value n p q) / M * M) with (M - emd_value n p q) in E by (field; lra). lra.
    + intros; subst q. assert (emd_value n p p = 0).
      { apply sumn_0. intros. rewrite Rminus_diag_eq by auto. apply Rabs_R0. }
      rewrite H. field. lra.
Qed.

Lemma emd_furthest : forall n p q, (2 <= n)%nat -> distribution_over n p -> distribution_over n q ->
  exists d dl dr, emd (vec p) (vec q) = Val d /\ emd (vec p) (vec (concentrated n 0)) = Val dl /\
    emd (vec p) (vec (concentrated n (n - 1))) = Val dr /\ (d <= dl \/ d <= dr).
Proof.
  intros n p q Hn Dp Dq. pose proof Dp as [Hp _]. pose proof Dq as [Hq _].
  exists (emd_value n p q), (emd_value n p (concentrated n 0)), (emd_value n p (concentrated n (n - 1))).
  rewrite !(emd_value_emd n) by (auto; try apply conc_len; lia).
  repeat split; auto. pose proof (emd_max_extreme n p q Hn Dp Dq) as Hle.
  unfold Rmax in Hle. destruct (Rle_dec _ _); auto.
Qed.

(** ** C29: emd_distances *)

Lemma fold_left_add : forall {A} (f : A -> R) l a, fold_left (fun d i => d + f i) l a = a + rsum (map f l).
Proof. induction l; simpl; intros; [lra|]. rewrite IHl. lra. Qed.

Lemma rsum_seq_from : forall m s f, rsum (map f (seq s m)) = sumn m (fun i => f (s + i)%nat).
Proof.
  induction m; intros; [reflexivity|]. rewrite seq_S, map_app, rsum_app, IHm. simpl. lra.
Qed.

Lemma emd_pair_value : forall n a b, length a = n -> length b = n -> (0 < n)%nat -> rsum a = rsum b ->
  emd_pair a b = emd_value n a b.
Proof.
  intros n a b Ha Hb Hn Hs. unfold emd_pair. rewrite Ha, fold_left_add, rsum_seq_from.
  assert (Hc : forall l k, length l = n -> (k < n)%nat -> nth k (cumsum l) 0 = cum l k).
  { intros. rewrite cumsum_nth by lia. auto. }
  rewrite (Hc a), (Hc b) by auto.
  rewrite (sumn_ext _ _ (fun i => Rabs (cum a (S i) - cum b (S i)))).
  2:{ intros. rewrite (Hc a), (Hc b); auto; lia. }
  unfold emd_value. destruct n as [|[|m]]; [lia| |].
  - simpl. lra.
  - replace (S (S m) - 2)%nat with m by lia. rewrite sumn_Sl. f_equal. cbn [sumn].
    assert (cum a (S m) = cum b (S m)).
    { unfold cum. rewrite <- Ha at 1. rewrite <- Hb. rewrite !sumn_nth. auto. }
    rewrite H, Rminus_diag_eq, Rabs_R0 by auto. lra.
Qed.

Lemma emd_distances_agrees : forall A B n i j, (0 < n)%nat ->
  Forall (fun r => length r = n) A -> Forall (fun r => length r = n) B ->
  (i < length A)%nat -> (j < length B)%nat ->
  rsum (nth i A []) = rsum (nth j B []) ->
  exists D v, emd_distances A B = Val D /\ emd (vec (nth i A [])) (vec (nth j B [])) = Val v /\
    nth j (nth i D []) 0 = v.
Proof.
  intros A B n i j Hn HA HB Hi Hj Hs. rewrite Forall_forall in HA, HB.
  assert (Ha : length (nth i A []) = n) by (apply HA, nth_In; auto).
  assert (Hb : length (nth j B []) = n) by (apply HB, nth_In; auto).
  unfold emd_distances.
  assert (EA : n_columns A = n). { unfold n_columns. destruct A; simpl in *; [lia|]. apply HA; auto. }
  assert (EB : n_columns B = n). { unfold n_columns. destruct B; simpl in *; [lia|]. apply HB; auto. }
  rewrite EA, EB, Nat.eqb_refl.
  destruct (Nat.eqb_spec (length A) 0); [lia|]. destruct (Nat.eqb_spec (length B) 0); [lia|].
  destruct (Nat.eqb_spec n 0); [lia|]. simpl.
  eexists. exists (emd_value n (nth i A []) (nth j B [])). split; [reflexivity|].
  split; [apply emd_value_emd; auto|].
  rewrite (nth_indep _ [] (map (emd_pair []) B)) by (rewrite map_length; auto).
  rewrite (map_nth (fun a => map (emd_pair a) B)). rewrite (nth_map_R _ _ _ []) by auto.
  apply emd_pair_value; auto.
Qed.

Lemma emd_distances_differs : exists A B D v,
  emd_distances A B = Val D /\ emd (vec (nth 0 A [])) (vec (nth 0 B [])) = Val v /\
  nth 0 (nth 0 D []) 0 <> v.
Proof.
  exists [[0; 1]], [[0; 0]], [[emd_pair [0; 1] [0; 0]]], (emd_value 2 [0; 1] [0; 0]).
  split; [reflexivity|]. split; [apply emd_value_emd; auto|]. simpl.
  unfold emd_pair, emd_value, cum, cumsum. simpl.
  replace (0 + 0 - (0 + 0)) with 0 by ring. replace (0 + 0 + 1 - (0 + 0 + 0)) with 1 by ring.
  rewrite Rabs_R0, Rabs_R1. intro; lra.
Qed.
