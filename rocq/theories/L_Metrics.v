(** * Proofs about the metrics. *)

From Coq Require Import Reals List ZArith Lia Lra Permutation Bool.
From Verif Require Import Num Spec Spec_Metrics L_Num M_Metrics.
Import ListNotations.
Open Scope R_scope.

(** ** Reduction to finite sums *)

Lemma vmap2_length : forall f p q, length p = length q -> length (vmap2 f p q) = length p.
Proof. induction p; destruct q; simpl; intros; try discriminate; auto. Qed.

Lemma vmap2_nth : forall f p q i, length p = length q -> (i < length p)%nat ->
  nth i (vmap2 f p q) 0 = f (nth i p 0) (nth i q 0).
Proof.
  induction p; destruct q; simpl; intros; try discriminate; try lia.
  destruct i; auto. apply IHp; auto; lia.
Qed.

Lemma rsum_vmap2 : forall f p q, length p = length q ->
  rsum (vmap2 f p q) = sumn (length p) (fun i => f (nth i p 0) (nth i q 0)).
Proof.
  intros. rewrite <- (sumn_nth (vmap2 f p q)), vmap2_length by auto.
  apply sumn_ext. intros. apply vmap2_nth; auto.
Qed.

Lemma concat_vec : forall v, concat (vec v) = v.
Proof. induction v; simpl; auto. f_equal. exact IHv. Qed.

Lemma vec_length : forall v, length (vec v) = length v.
Proof. intros; apply map_length. Qed.

Lemma checked_vec : forall f p q, length p = length q -> p <> [] -> checked f (vec p) (vec q) = f p q.
Proof.
  intros. unfold checked, check_prevalences. rewrite !vec_length, H, Nat.eqb_refl. simpl.
  destruct p; [congruence|]. destruct q; [discriminate|].
  simpl. change (concat (map (fun x => [x]) p)) with (concat (vec p)).
  change (concat (map (fun x => [x]) q)) with (concat (vec q)). rewrite !concat_vec. auto.
Qed.

Lemma checked_reject : forall f p q, length p <> length q \/ p = [] ->
  checked f (vec p) (vec q) = Err ValueError.
Proof.
  intros. unfold checked, check_prevalences. rewrite !vec_length.
  destruct (Nat.eqb_spec (length p) (length q)); simpl; auto.
  destruct H; [congruence|]. subst. simpl. auto.
Qed.

Lemma osum_val : forall f g p q,
  (forall a b, In (a, b) (combine p q) -> f a b = Val (g a b)) ->
  osum (map2 f p q) = Val (rsum (vmap2 g p q)).
Proof.
  induction p; destruct q; simpl; intros; auto.
  rewrite H by auto. simpl. rewrite IHp by auto. auto.
Qed.

Lemma nth_distribution_nonneg : forall p i, Forall (fun x => 0 <= x) p -> 0 <= nth i p 0.
Proof.
  intros. destruct (Nat.lt_ge_cases i (length p)).
  - rewrite Forall_forall in H. apply H, nth_In; auto.
  - rewrite nth_overflow by auto. lra.
Qed.

Lemma length_nonempty : forall {A} n (p : list A), length p = n -> (0 < n)%nat -> p <> [].
Proof. intros. destruct p; simpl in *; [lia|congruence]. Qed.

(** ** Cauchy-Schwarz and Minkowski *)

Lemma cauchy_schwarz : forall n a b,
  (sumn n (fun i => a i * b i)) ^ 2 <= sumn n (fun i => a i ^ 2) * sumn n (fun i => b i ^ 2).
Proof.
  intros. induction n; cbn [sumn]; [lra|].
  set (S := sumn n (fun i => a i * b i)) in *.
  set (A := sumn n (fun i => a i ^ 2)) in *. set (B := sumn n (fun i => b i ^ 2)) in *.
  assert (HA : 0 <= A) by (apply sumn_nonneg; intros; apply pow2_ge_0).
  assert (HB : 0 <= B) by (apply sumn_nonneg; intros; apply pow2_ge_0).
  assert (HS : Rabs S <= sqrt A * sqrt B).
  { rewrite <- sqrt_mult by auto. rewrite <- (sqrt_Rsqr (Rabs S)) by apply Rabs_pos.
    apply sqrt_le_1_alt. rewrite <- Rsqr_abs. unfold Rsqr. nra. }
  assert (H2 : 2 * S * (a n * b n) <= A * b n ^ 2 + B * a n ^ 2).
  { apply Rle_trans with (2 * Rabs S * (Rabs (a n) * Rabs (b n))).
    - rewrite <- Rabs_mult. replace (2 * Rabs S * Rabs (a n * b n)) with (2 * Rabs (S * (a n * b n)))
        by (rewrite Rabs_mult; ring).
      pose proof (Rle_abs (S * (a n * b n))). lra.
    - apply Rle_trans with (2 * (sqrt A * sqrt B) * (Rabs (a n) * Rabs (b n))).
      + apply Rmult_le_compat_r; [apply Rmult_le_pos; apply Rabs_pos|lra].
      + rewrite <- (pow2_abs (a n)), <- (pow2_abs (b n)).
        rewrite <- (pow2_sqrt A) at 2 by auto. rewrite <- (pow2_sqrt B) at 2 by auto.
        pose proof (pow2_ge_0 (sqrt A * Rabs (b n) - sqrt B * Rabs (a n))). nra. }
  nra.
Qed.

Lemma minkowski : forall n a b,
  sqrt (sumn n (fun i => (a i + b i) ^ 2)) <=
  sqrt (sumn n (fun i => a i ^ 2)) + sqrt (sumn n (fun i => b i ^ 2)).
Proof.
  intros. pose proof (cauchy_schwarz n a b) as CS.
  rewrite (sumn_ext n (fun i => (a i + b i)^2) (fun i => a i ^ 2 + b i ^ 2 + 2 * (a i * b i)))
    by (intros; ring).
  rewrite !sumn_plus, sumn_scal.
  set (S := sumn n (fun i => a i * b i)) in *.
  set (A := sumn n (fun i => a i ^ 2)) in *. set (B := sumn n (fun i => b i ^ 2)) in *.
  assert (HA : 0 <= A) by (apply sumn_nonneg; intros; apply pow2_ge_0).
  assert (HB : 0 <= B) by (apply sumn_nonneg; intros; apply pow2_ge_0).
  assert (HS : S <= sqrt A * sqrt B).
  { eapply Rle_trans; [apply Rle_abs|].
    rewrite <- sqrt_mult by auto. rewrite <- (sqrt_Rsqr (Rabs S)) by apply Rabs_pos.
    apply sqrt_le_1_alt. rewrite <- Rsqr_abs. unfold Rsqr. nra. }
  pose proof (sqrt_pos A). pose proof (sqrt_pos B).
  apply Rle_trans with (sqrt ((sqrt A + sqrt B) ^ 2)).
  - apply sqrt_le_1_alt. replace ((sqrt A + sqrt B)^2) with (sqrt A ^ 2 + sqrt B ^ 2 + 2 * (sqrt A * sqrt B)) by ring.
    rewrite !pow2_sqrt by auto. lra.
  - rewrite sqrt_pow2 by lra. lra.
Qed.

(** ** Value lemmas *)

Definition dsum (f : R -> R -> R) (p q : list R) : R :=
  sumn (length p) (fun i => f (nth i p 0) (nth i q 0)).

Lemma l1_val : forall p q, length p = length q -> p <> [] ->
  l1 (vec p) (vec q) = Val (dsum (fun a b => Rabs (a - b)) p q).
Proof. intros. unfold l1. rewrite checked_vec by auto. rewrite rsum_vmap2; auto. Qed.

Lemma mae_val : forall p q, length p = length q -> p <> [] ->
  mean_absolute_error (vec p) (vec q) = Val (dsum (fun a b => Rabs (b - a)) p q / INR (length p)).
Proof.
  intros. unfold mean_absolute_error. rewrite checked_vec by auto.
  unfold rmean. rewrite rsum_vmap2, vmap2_length; auto.
Qed.

Lemma mse_val : forall p q, length p = length q -> p <> [] ->
  mean_squared_error (vec p) (vec q) = Val (dsum (fun a b => (b - a) ^ 2) p q / INR (length p)).
Proof.
  intros. unfold mean_squared_error. rewrite checked_vec by auto.
  unfold rmean. rewrite rsum_vmap2, vmap2_length; auto.
Qed.

Lemma l2_val : forall p q, length p = length q -> p <> [] ->
  l2 (vec p) (vec q) = Val (sqrt (dsum (fun a b => (a - b) ^ 2) p q)).
Proof. intros. unfold l2. rewrite checked_vec by auto. rewrite rsum_vmap2; auto. Qed.

Lemma Forall_combine : forall {A B} (P : A -> Prop) (Q : B -> Prop) p q a b,
  Forall P p -> Forall Q q -> In (a, b) (combine p q) -> P a /\ Q b.
Proof.
  intros. rewrite Forall_forall in *. split; [apply H|apply H0].
  eapply in_combine_l; eauto. eapply in_combine_r; eauto.
Qed.

Lemma hd_val : forall p q, length p = length q -> p <> [] ->
  Forall (fun x => 0 <= x) p -> Forall (fun x => 0 <= x) q ->
  hdist (vec p) (vec q) = Val (sqrt (dsum (fun a b => (sqrt b - sqrt a) ^ 2) p q)).
Proof.
  intros. unfold hdist. rewrite checked_vec by auto.
  rewrite (osum_val _ (fun a b => (sqrt b - sqrt a) ^ 2)).
  - simpl. rewrite rsum_vmap2; auto.
  - intros a b Hin. destruct (Forall_combine _ _ _ _ _ _ H1 H2 Hin) as [Ha Hb].
    unfold osqrt. destruct (Rle_dec 0 b); [|lra]. destruct (Rle_dec 0 a); [|lra]. auto.
Qed.

Lemma cumsum_from_length : forall l a, length (cumsum_from a l) = length l.
Proof. induction l; simpl; auto. Qed.

Lemma cumsum_from_nth : forall l a k, (k < length l)%nat ->
  nth k (cumsum_from a l) 0 = a + sumn (S k) (fun i => nth i l 0).
Proof.
  induction l; intros; simpl in H; [lia|].
  destruct k.
  - simpl. lra.
  - change (nth (S k) (cumsum_from a0 (a :: l)) 0) with (nth k (cumsum_from (a0 + a) l) 0).
    rewrite IHl by lia. rewrite (sumn_Sl (S k)). cbn [nth]. lra.
Qed.

Lemma cumsum_nth : forall l k, (k < length l)%nat ->
  nth k (cumsum l) 0 = sumn (S k) (fun i => nth i l 0).
Proof. intros. unfold cumsum. rewrite cumsum_from_nth by auto. lra. Qed.

Lemma cumsum_length : forall l, length (cumsum l) = length l.
Proof. intros. apply cumsum_from_length. Qed.

(** Cumulated mass up to and including class k. *)
Definition cum (p : list R) (k : nat) : R := sumn (S k) (fun i => nth i p 0).

Lemma emd_val : forall p q, length p = length q -> p <> [] ->
  emd (vec p) (vec q) = Val (sumn (length p) (fun k => Rabs (cum p k - cum q k))).
Proof.
  intros. unfold emd. rewrite checked_vec by auto. f_equal.
  rewrite <- (sumn_nth (map Rabs _)). rewrite map_length, cumsum_length, vmap2_length by auto.
  apply sumn_ext. intros k Hk.
  rewrite (nth_map_R Rabs _ _ 0) by (rewrite cumsum_length, vmap2_length; auto).
  f_equal. rewrite cumsum_nth by (rewrite vmap2_length; auto).
  unfold cum. rewrite <- sumn_minus. apply sumn_ext. intros i Hi.
  apply vmap2_nth; auto. lia.
Qed.

(** ** C23: metrics *)

Lemma dsum_abs_zero : forall p q, length p = length q ->
  dsum (fun a b => Rabs (a - b)) p q = 0 -> p = q.
Proof.
  intros. apply list_eq_nth; auto. intros i Hi. unfold dsum in H0.
  assert (Rabs (nth i p 0 - nth i q 0) = 0).
  { apply (sumn_zero_all (length p) (fun i => Rabs (nth i p 0 - nth i q 0))); auto.
    intros; apply Rabs_pos. }
  destruct (Req_dec (nth i p 0 - nth i q 0) 0) as [E|E]; [lra | apply Rabs_no_R0 in E; lra].
Qed.

Lemma dsum_swap : forall f g p q, length p = length q -> (forall a b, f a b = g b a) ->
  dsum f p q = dsum g q p.
Proof. intros. unfold dsum. rewrite H. apply sumn_ext. intros; auto. Qed.

Lemma dsum_ext : forall f g p q, (forall a b, f a b = g a b) -> dsum f p q = dsum g p q.
Proof. intros. unfold dsum. apply sumn_ext; auto. Qed.

Lemma dsum_abs_triangle : forall p q r, length p = length q -> length q = length r ->
  dsum (fun a b => Rabs (a - b)) p r <=
  dsum (fun a b => Rabs (a - b)) p q + dsum (fun a b => Rabs (a - b)) q r.
Proof.
  intros. unfold dsum. rewrite <- H. rewrite <- sumn_plus. apply sumn_le. intros.
  replace (nth i p 0 - nth i r 0) with ((nth i p 0 - nth i q 0) + (nth i q 0 - nth i r 0)) by ring.
  apply Rabs_triang.
Qed.

Lemma dsum_self_abs : forall p, dsum (fun a b => Rabs (a - b)) p p = 0.
Proof.
  intros. unfold dsum. apply sumn_0. intros. rewrite Rminus_diag_eq by auto. apply Rabs_R0.
Qed.

Lemma dsum_nonneg : forall f p q, (forall a b, 0 <= f a b) -> 0 <= dsum f p q.
Proof. intros. apply sumn_nonneg. intros; auto. Qed.

Lemma l1_metric : forall n, (0 < n)%nat ->
  metric_on (fun p => length p = n) (fun p q => l1 (vec p) (vec q)).
Proof.
  intros n Hn. split.
  - intros p q Hp Hq. assert (length p = length q) by lia. assert (p <> []) by (apply (length_nonempty n); auto).
    assert (q <> []) by (apply (length_nonempty n); auto).
    exists (dsum (fun a b => Rabs (a - b)) p q). repeat split.
    + apply l1_val; auto.
    + rewrite l1_val by auto. f_equal. apply dsum_swap; auto. intros; apply Rabs_minus_sym.
    + apply dsum_nonneg. intros; apply Rabs_pos.
    + apply dsum_abs_zero; auto.
    + intros; subst; apply dsum_self_abs.
  - intros p q r a b c Hp Hq Hr Ha Hb Hc.
    rewrite l1_val in Ha, Hb, Hc by (try lia; apply (length_nonempty n); auto).
    inversion Ha; inversion Hb; inversion Hc. apply dsum_abs_triangle; lia.
Qed.

Lemma mae_metric : forall n, (0 < n)%nat ->
  metric_on (fun p => length p = n) (fun p q => mean_absolute_error (vec p) (vec q)).
Proof.
  intros n Hn. assert (HN : 0 < INR n) by (apply INR_pos; auto).
  assert (Hv : forall p q, length p = n -> length q = n ->
    mean_absolute_error (vec p) (vec q) = Val (dsum (fun a b => Rabs (a - b)) p q / INR n)).
  { intros. rewrite mae_val by (try lia; apply (length_nonempty n); auto).
    rewrite (dsum_ext _ (fun a b => Rabs (a - b))); [rewrite H; auto|]. intros; apply Rabs_minus_sym. }
  split.
  - intros p q Hp Hq. assert (length p = length q) by lia.
    exists (dsum (fun a b => Rabs (a - b)) p q / INR n). repeat split.
    + auto.
    + rewrite Hv by auto. do 2 f_equal. apply dsum_swap; auto. intros; apply Rabs_minus_sym.
    + apply Rmult_le_pos; [apply dsum_nonneg; intros; apply Rabs_pos|left; apply Rinv_0_lt_compat; auto].
    + intros. apply dsum_abs_zero; auto.
      apply (Rmult_eq_compat_r (INR n)) in H0. unfold Rdiv in H0. rewrite Rmult_assoc, Rinv_l in H0 by lra. lra.
    + intros; subst. rewrite dsum_self_abs. unfold Rdiv; lra.
  - intros p q r a b c Hp Hq Hr Ha Hb Hc.
    rewrite Hv in Ha, Hb, Hc by auto.
    inversion Ha; inversion Hb; inversion Hc. rewrite <- Rdiv_plus_distr.
    apply Rmult_le_compat_r; [left; apply Rinv_0_lt_compat; auto|]. apply dsum_abs_triangle; lia.
Qed.

Lemma sqrt_zero_inv : forall x, 0 <= x -> sqrt x = 0 -> x = 0.
Proof. intros. apply sqrt_eq_0; auto. Qed.

Lemma dsum_sq_zero : forall g p q, length p = length q ->
  dsum (fun a b => (g a - g b) ^ 2) p q = 0 ->
  forall i, (i < length p)%nat -> g (nth i p 0) = g (nth i q 0).
Proof.
  intros. unfold dsum in H0.
  assert ((g (nth i p 0) - g (nth i q 0)) ^ 2 = 0).
  { apply (sumn_zero_all (length p) (fun i => (g (nth i p 0) - g (nth i q 0)) ^ 2)); auto.
    intros; apply pow2_ge_0. }
  assert (g (nth i p 0) - g (nth i q 0) = 0) by nra. lra.
Qed.

Lemma dsum_sq_triangle : forall g p q r, length p = length q -> length q = length r ->
  sqrt (dsum (fun a b => (g a - g b) ^ 2) p r) <=
  sqrt (dsum (fun a b => (g a - g b) ^ 2) p q) + sqrt (dsum (fun a b => (g a - g b) ^ 2) q r).
Proof.
  intros. unfold dsum. rewrite <- H.
  rewrite (sumn_ext (length p) (fun i => (g (nth i p 0) - g (nth i r 0)) ^ 2)
    (fun i => ((g (nth i p 0) - g (nth i q 0)) + (g (nth i q 0) - g (nth i r 0))) ^ 2)) by (intros; ring).
  apply minkowski.
Qed.

Lemma dsum_self_sq : forall g p, dsum (fun a b => (g a - g b) ^ 2) p p = 0.
Proof. intros. unfold dsum. apply sumn_0. intros. ring. Qed.

Lemma l2_metric : forall n, (0 < n)%nat ->
  metric_on (fun p => length p = n) (fun p q => l2 (vec p) (vec q)).
Proof.
  intros n Hn. split.
  - intros p q Hp Hq. assert (length p = length q) by lia.
    assert (p <> []) by (apply (length_nonempty n); auto). assert (q <> []) by (apply (length_nonempty n); auto).
    exists (sqrt (dsum (fun a b => (a - b) ^ 2) p q)). repeat split.
    + apply l2_val; auto.
    + rewrite l2_val by auto. do 2 f_equal. apply dsum_swap; auto. intros; ring.
    + apply sqrt_pos.
    + intros E. apply sqrt_zero_inv in E; [|apply dsum_nonneg; intros; apply pow2_ge_0].
      apply list_eq_nth; auto. apply (dsum_sq_zero (fun x => x)); auto.
    + intros; subst. rewrite (dsum_self_sq (fun x => x)). apply sqrt_0.
  - intros p q r a b c Hp Hq Hr Ha Hb Hc.
    rewrite l2_val in Ha, Hb, Hc by (try lia; apply (length_nonempty n); auto).
    inversion Ha; inversion Hb; inversion Hc. apply (dsum_sq_triangle (fun x => x)); lia.
Qed.

Lemma hd_metric : forall n, (0 < n)%nat ->
  metric_on (fun p => length p = n /\ Forall (fun x => 0 <= x) p) (fun p q => hdist (vec p) (vec q)).
Proof.
  intros n Hn.
  assert (Hv : forall p q, length p = n /\ Forall (fun x => 0 <= x) p -> length q = n /\ Forall (fun x => 0 <= x) q ->
     hdist (vec p) (vec q) = Val (sqrt (dsum (fun a b => (sqrt a - sqrt b) ^ 2) p q))).
  { intros p q [Hp Hp'] [Hq Hq']. rewrite hd_val by (try lia; auto; apply (length_nonempty n); auto).
    do 2 f_equal. apply dsum_ext. intros; ring. }
  split.
  - intros p q HP HQ. pose proof HP as [Hp Hp']. pose proof HQ as [Hq Hq'].
    assert (length p = length q) by lia.
    exists (sqrt (dsum (fun a b => (sqrt a - sqrt b) ^ 2) p q)). repeat split.
    + auto.
    + rewrite Hv by auto. do 2 f_equal. apply dsum_swap; auto. intros; ring.
    + apply sqrt_pos.
    + intros E. apply sqrt_zero_inv in E; [|apply dsum_nonneg; intros; apply pow2_ge_0].
      apply list_eq_nth; auto. intros i Hi. pose proof (dsum_sq_zero sqrt p q H E i Hi).
      apply sqrt_inj; auto; apply nth_distribution_nonneg; auto.
    + intros; subst. rewrite (dsum_self_sq sqrt). apply sqrt_0.
  - intros p q r a b c Hp Hq Hr Ha Hb Hc.
    rewrite Hv in Ha, Hb, Hc by auto.
    inversion Ha; inversion Hb; inversion Hc. apply (dsum_sq_triangle sqrt); lia.
Qed.

Lemma cum_inj : forall p q, length p = length q ->
  (forall k, (k < length p)%nat -> cum p k = cum q k) -> p = q.
Proof.
  intros. apply list_eq_nth; auto. intros i Hi. destruct i.
  - specialize (H0 O Hi). unfold cum in H0. simpl in H0. lra.
  - pose proof (H0 i ltac:(lia)). pose proof (H0 (S i) Hi). unfold cum in *.
    change (sumn (S (S i)) (fun i => nth i p 0)) with (sumn (S i) (fun i => nth i p 0) + nth (S i) p 0) in H2.
    change (sumn (S (S i)) (fun i => nth i q 0)) with (sumn (S i) (fun i => nth i q 0) + nth (S i) q 0) in H2.
    lra.
Qed.

Lemma emd_metric : forall n, (0 < n)%nat ->
  metric_on (fun p => length p = n) (fun p q => emd (vec p) (vec q)).
Proof.
  intros n Hn. split.
  - intros p q Hp Hq. assert (length p = length q) by lia.
    assert (p <> []) by (apply (length_nonempty n); auto). assert (q <> []) by (apply (length_nonempty n); auto).
    exists (sumn (length p) (fun k => Rabs (cum p k - cum q k))). repeat split.
    + apply emd_val; auto.
    + rewrite emd_val by auto. f_equal. rewrite H. apply sumn_ext. intros; apply Rabs_minus_sym.
    + apply sumn_nonneg. intros; apply Rabs_pos.
    + intros E. apply cum_inj; auto. intros k Hk.
      assert (Rabs (cum p k - cum q k) = 0).
      { apply (sumn_zero_all (length p) (fun k => Rabs (cum p k - cum q k))); auto. intros; apply Rabs_pos. }
      destruct (Req_dec (cum p k - cum q k) 0) as [E0|E0]; [lra|]. apply Rabs_no_R0 in E0; lra.
    + intros; subst. apply sumn_0. intros. rewrite Rminus_diag_eq by auto. apply Rabs_R0.
  - intros p q r a b c Hp Hq Hr Ha Hb Hc.
    rewrite emd_val in Ha, Hb, Hc by (try lia; apply (length_nonempty n); auto).
    inversion Ha; inversion Hb; inversion Hc. rewrite Hp, Hq. rewrite <- sumn_plus.
    apply sumn_le. intros.
    replace (cum p i - cum r i) with ((cum p i - cum q i) + (cum q i - cum r i)) by ring.
    apply Rabs_triang.
Qed.
