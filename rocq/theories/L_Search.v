(** * Proofs about golden_section_search and global_search. *)

From Coq Require Import Reals List ZArith Lia Lra Psatz Bool.
From Verif Require Import Num Spec M_Search Spec_Search L_Num L_Bags.
Import ListNotations.
Open Scope R_scope.

Lemma sqrt5 : 2 < sqrt 5 < 3 /\ sqrt 5 * sqrt 5 = 5.
Proof.
  assert (E : sqrt 5 * sqrt 5 = 5) by (apply sqrt_sqrt; lra). pose proof (sqrt_pos 5). split; [|exact E]. split; nra.
Qed.

Lemma phi_facts : 1/2 < invphi < 1 /\ invphi2 = 1 - invphi /\ invphi * invphi = 1 - invphi.
Proof.
  destruct sqrt5 as [[H1 H2] H3]. unfold invphi, invphi2. split; [lra|]. split; [lra|].
  replace ((sqrt 5 - 1) / 2 * ((sqrt 5 - 1) / 2)) with ((sqrt 5 * sqrt 5 - 2 * sqrt 5 + 1) / 4) by lra. rewrite H3. lra.
Qed.

Lemma ceil_bounds : forall x, x <= IZR (ceil x) < x + 1.
Proof. intros x. unfold ceil. rewrite opp_IZR. pose proof (Int_part_bounds (- x)). lra. Qed.

(** ** The state of the loop *)
Definition good_state (f : R -> R) (a0 b0 : R) (s : golden_state) : Prop :=
  a0 <= g_a s /\ g_b s <= b0 /\ 0 < g_h s /\ g_b s = g_a s + g_h s /\ g_c s = g_a s + (1 - invphi) * g_h s /\
  g_d s = g_a s + invphi * g_h s /\ g_fc s = f (g_c s) /\ g_fd s = f (g_d s).

Lemma start_good : forall f a b, a < b -> good_state f a b (golden_start f a b).
Proof.
  intros f a b H. destruct phi_facts as [P1 [P2 P3]]. unfold good_state, golden_start. cbn [g_a g_b g_c g_d g_h g_fc g_fd].
  rewrite P2. repeat split; try lra.
Qed.

Lemma step_good : forall f a0 b0 s, good_state f a0 b0 s -> good_state f a0 b0 (golden_step f s).
Proof.
  intros f a0 b0 s [A [B [H [Eb [Ec [Ed [Fc Fd]]]]]]]. destruct phi_facts as [P1 [P2 P3]].
  assert (Q : invphi * (invphi * g_h s) = (1 - invphi) * g_h s) by (rewrite <- Rmult_assoc, P3; auto).
  assert (0 < invphi * g_h s) by (apply Rmult_lt_0_compat; lra).
  assert (invphi * g_h s <= g_h s) by nra.
  unfold golden_step. destruct (Rlt_dec (g_fc s) (g_fd s)); unfold good_state; cbn [g_a g_b g_c g_d g_h g_fc g_fd]; rewrite ?P2;
    repeat split; auto; try lra; try nra.
Qed.

Lemma loop_good : forall f a0 b0 n s, good_state f a0 b0 s -> good_state f a0 b0 (golden_loop f n s).
Proof. intros f a0 b0. induction n; intros s H; simpl; auto. apply IHn, step_good, H. Qed.

Lemma step_h : forall f s, g_h (golden_step f s) = invphi * g_h s.
Proof. intros. unfold golden_step. destruct (Rlt_dec _ _); auto. Qed.

Lemma loop_h : forall f n s, g_h (golden_loop f n s) = invphi ^ n * g_h s.
Proof. intros f. induction n; intros s; simpl; [lra|]. rewrite IHn, step_h. ring. Qed.

Lemma pow_exp : forall x n, 0 < x -> x ^ n = exp (INR n * ln x).
Proof.
  intros x n H. induction n as [|n IH].
  - simpl. rewrite Rmult_0_l, exp_0. auto.
  - rewrite S_INR. simpl. rewrite IH. rewrite Rmult_plus_distr_r, Rmult_1_l, exp_plus, (exp_ln x H). ring.
Qed.

(** The final bracket is small enough. *)
Lemma enough_steps : forall tol h, 0 < tol -> 0 < h ->
  invphi * (invphi ^ Z.to_nat (golden_steps tol h - 1) * h) <= tol.
Proof.
  intros tol h Ht Hh. destruct phi_facts as [P1 [P2 P3]].
  assert (L : ln invphi < 0) by (rewrite <- ln_1; apply ln_increasing; lra).
  assert (T : 0 < tol / h) by (apply Rmult_lt_0_compat; [auto|apply Rinv_0_lt_compat; auto]).
  pose proof (ceil_bounds (ln (tol / h) / ln invphi)) as C. fold (golden_steps tol h) in C.
  set (n := golden_steps tol h) in *.
  assert (G : IZR n * ln invphi <= ln (tol / h)).
  { destruct C as [C _]. apply (Rmult_le_compat_neg_l (ln invphi)) in C; [|lra].
    replace (ln invphi * (ln (tol / h) / ln invphi)) with (ln (tol / h)) in C by (field; lra). lra. }
  assert (B : forall k : nat, (IZR n <= INR k) -> invphi ^ k * h <= tol).
  { intros k Hk. assert (INR k * ln invphi <= ln (tol / h)) by nra.
    rewrite (pow_exp invphi k) by lra.
    assert (E : exp (INR k * ln invphi) <= tol / h).
    { rewrite <- (exp_ln (tol / h)) by auto. destruct H as [H|H]; [left; apply exp_increasing; auto|right; rewrite H; auto]. }
    apply (Rmult_le_compat_r h) in E; [|lra]. replace (tol / h * h) with tol in E by (field; lra). exact E. }
  rewrite <- Rmult_assoc. change (invphi * invphi ^ Z.to_nat (n - 1)) with (invphi ^ S (Z.to_nat (n - 1))).
  apply B. rewrite S_INR, INR_IZR_INZ. rewrite <- plus_IZR. apply IZR_le. lia.
Qed.

Lemma search_val : forall f tol a b, a < b -> 0 < tol ->
  golden_section_search f tol a b = Val (golden_end (golden_loop f (Z.to_nat (golden_steps tol (b - a) - 1)) (golden_start f a b))).
Proof.
  intros f tol a b H T. unfold golden_section_search. destruct (Req_EM_T (b - a) 0); [lra|].
  assert (0 < tol / (b - a)) by (apply Rmult_lt_0_compat; [auto|apply Rinv_0_lt_compat; lra]).
  destruct (Rle_dec (tol / (b - a)) 0); [lra|auto].
Qed.

(** Where the result is, for any loss. *)
Theorem golden_inside : forall f tol a b, a < b -> 0 < tol ->
  exists loss p z, golden_section_search f tol a b = Val (loss, p) /\ a < p < b /\ a < z < b /\ loss = f z.
Proof.
  intros f tol a b H T. rewrite search_val by auto. set (s := golden_loop _ _ _).
  assert (G : good_state f a b s) by (apply loop_good, start_good; auto).
  destruct G as [A [B [Hh [Eb [Ec [Ed [Fc Fd]]]]]]]. destruct phi_facts as [P1 [P2 P3]].
  assert (0 < invphi * g_h s < g_h s) by nra. assert (0 < (1 - invphi) * g_h s < g_h s) by nra.
  unfold golden_end. destruct (Rlt_dec (g_fc s) (g_fd s)).
  - exists (g_fc s), ((g_a s + g_d s) / 2), (g_c s). repeat split; auto; lra.
  - exists (g_fd s), ((g_c s + g_b s) / 2), (g_d s). repeat split; auto; lra.
Qed.

(** ** Losses with a valley *)
Definition valley (f : R -> R) (a b : R) : Prop :=
  forall m, minimises f a b m -> forall c d, a <= c -> c < d -> d <= b ->
    (d < m -> f d <= f c) /\ (m < c -> f d <= f c -> f d <= f m).

Lemma unimodal_minimises : forall f a b m, strictly_unimodal f a b m -> minimises f a b m.
Proof.
  intros f a b m [H1 [H2 H3]]. split; auto. intros x Hx. destruct (total_order_T x m) as [[L|E]|G].
  - left. apply H2; lra.
  - subst. lra.
  - left. apply H3; lra.
Qed.

Lemma unimodal_unique : forall f a b m m', strictly_unimodal f a b m -> minimises f a b m' -> m' = m.
Proof.
  intros f a b m m' [H1 [H2 H3]] [M1 M2]. destruct (total_order_T m' m) as [[L|E]|G]; auto; exfalso.
  - specialize (H2 m' m ltac:(lra) L ltac:(lra)). specialize (M2 m H1). lra.
  - specialize (H3 m m' ltac:(lra) G ltac:(lra)). specialize (M2 m H1). lra.
Qed.

Lemma unimodal_valley : forall f a b m, strictly_unimodal f a b m -> valley f a b.
Proof.
  intros f a b m U m' M c d Hc Hcd Hd. rewrite (unimodal_unique _ _ _ _ _ U M). destruct U as [H1 [H2 H3]]. split.
  - intros L. left. apply H2; lra.
  - intros L F. exfalso. specialize (H3 c d ltac:(lra) Hcd Hd). lra.
Qed.

Lemma between : forall x y z, x < y < z -> exists t, 0 < t < 1 /\ y = t * x + (1 - t) * z.
Proof.
  intros x y z [H1 H2]. exists ((z - y) / (z - x)). split.
  - split; [apply Rmult_lt_0_compat; [lra|apply Rinv_0_lt_compat; lra]|].
    apply (Rmult_lt_reg_r (z - x)); [lra|]. unfold Rdiv. rewrite Rmult_assoc, Rinv_l by lra. lra.
  - field. lra.
Qed.

Lemma convex_valley : forall f a b, convex_on f a b -> valley f a b.
Proof.
  intros f a b C m [M1 M2] c d Hc Hcd Hd. split.
  - intros L. destruct (between c d m ltac:(lra)) as [t [Ht E]].
    pose proof (C c m t ltac:(lra) ltac:(lra) ltac:(lra)) as K. rewrite <- E in K. pose proof (M2 c ltac:(lra)). nra.
  - intros L F. destruct (between m c d ltac:(lra)) as [t [Ht E]].
    pose proof (C m d t ltac:(lra) ltac:(lra) ltac:(lra)) as K. rewrite <- E in K. nra.
Qed.

Lemma step_valley : forall f a0 b0 s, valley f a0 b0 -> good_state f a0 b0 s ->
  (exists m, minimises f a0 b0 m /\ g_a s <= m <= g_b s) ->
  (g_fc s < g_fd s -> exists m, minimises f a0 b0 m /\ g_a s <= m <= g_d s) /\
  (g_fd s <= g_fc s -> exists m, minimises f a0 b0 m /\ g_c s <= m <= g_b s).
Proof.
  intros f a0 b0 s V [A [B [Hh [Eb [Ec [Ed [Fc Fd]]]]]]] [m [M [Hm1 Hm2]]]. destruct phi_facts as [P1 [P2 P3]].
  assert (0 < invphi * g_h s < g_h s) by nra. assert ((1 - invphi) * g_h s < invphi * g_h s) by nra.
  assert (0 < (1 - invphi) * g_h s) by nra.
  destruct (V m M (g_c s) (g_d s) ltac:(lra) ltac:(lra) ltac:(lra)) as [V1 V2].
  rewrite Fc, Fd. split; intros L.
  - exists m. split; auto. split; auto. destruct (Rle_lt_dec m (g_d s)); auto. specialize (V1 r). lra.
  - destruct (Rle_lt_dec (g_c s) m) as [G|G]; [exists m; auto|].
    specialize (V2 G L). exists (g_d s). split; [|lra]. split; [lra|]. intros x Hx. destruct M as [_ M]. specialize (M x Hx). lra.
Qed.

Lemma loop_valley : forall f a0 b0 n s, valley f a0 b0 -> good_state f a0 b0 s ->
  (exists m, minimises f a0 b0 m /\ g_a s <= m <= g_b s) ->
  exists m, minimises f a0 b0 m /\ g_a (golden_loop f n s) <= m <= g_b (golden_loop f n s).
Proof.
  intros f a0 b0. induction n; intros s V G E; simpl; auto. apply IHn; auto; [apply step_good; auto|].
  destruct (step_valley f a0 b0 s V G E) as [E1 E2]. unfold golden_step.
  destruct (Rlt_dec (g_fc s) (g_fd s)); cbn [g_a g_b]; [apply E1; auto|apply E2; lra].
Qed.

Theorem golden_valley : forall f tol a b m, a < b -> 0 < tol -> valley f a b -> minimises f a b m ->
  exists loss p best, golden_section_search f tol a b = Val (loss, p) /\ minimises f a b best /\ Rabs (p - best) <= tol / 2.
Proof.
  intros f tol a b m H T V M. rewrite search_val by auto. set (n := Z.to_nat _). set (s := golden_loop _ _ _).
  assert (G0 := start_good f a b H).
  assert (G : good_state f a b s) by (apply loop_good; auto).
  assert (E : exists m, minimises f a b m /\ g_a s <= m <= g_b s).
  { apply loop_valley; auto. exists m. split; auto. unfold golden_start. cbn [g_a g_b]. apply M. }
  destruct (step_valley f a b s V G E) as [E1 E2]. destruct G as [A [B [Hh [Eb [Ec [Ed [Fc Fd]]]]]]].
  assert (S1 : invphi * g_h s <= tol).
  { unfold s. rewrite loop_h. unfold golden_start. cbn [g_h]. apply enough_steps; lra. }
  unfold golden_end. destruct (Rlt_dec (g_fc s) (g_fd s)).
  - destruct E1 as [m1 [M1 R1]]; auto. eexists _, _, m1. split; [reflexivity|]. split; auto. apply Rabs_le. lra.
  - destruct E2 as [m1 [M1 R1]]; [lra|]. eexists _, _, m1. split; [reflexivity|]. split; auto. apply Rabs_le. lra.
Qed.

Theorem golden_unimodal : forall f tol a b m, a < b -> 0 < tol -> strictly_unimodal f a b m ->
  exists loss p, golden_section_search f tol a b = Val (loss, p) /\ Rabs (p - m) <= tol / 2.
Proof.
  intros f tol a b m H T U.
  destruct (golden_valley f tol a b m H T (unimodal_valley _ _ _ _ U) (unimodal_minimises _ _ _ _ U)) as [loss [p [best [E [M D]]]]].
  rewrite (unimodal_unique _ _ _ _ _ U M) in D. eauto.
Qed.

Theorem golden_convex : forall f tol a b m, a < b -> 0 < tol -> convex_on f a b -> minimises f a b m ->
  exists loss p best, golden_section_search f tol a b = Val (loss, p) /\ minimises f a b best /\ Rabs (p - best) <= tol / 2.
Proof. intros f tol a b m H T C M. apply (golden_valley f tol a b m); auto. apply convex_valley; auto. Qed.

Theorem golden_errors : forall f tol a b,
  (a = b -> golden_section_search f tol a b = Err ZeroDivisionError) /\
  (a <> b -> tol / (b - a) <= 0 -> golden_section_search f tol a b = Err ValueError).
Proof.
  intros f tol a b. unfold golden_section_search. split.
  - intros ->. destruct (Req_EM_T (b - b) 0); [auto|lra].
  - intros H L. destruct (Req_EM_T (b - a) 0); [exfalso; apply H; lra|]. destruct (Rle_dec _ 0); [auto|contradiction].
Qed.

(** ** More about strictly unimodal losses: what the returned loss says about the points to the right. *)
Lemma sub_unimodal : forall f A B a b m, strictly_unimodal f A B m -> A <= a -> b <= B -> a <= m <= b -> strictly_unimodal f a b m.
Proof.
  intros f A B a b m [H1 [H2 H3]] Ha Hb Hm. split; auto. split.
  - intros x y Hx Hxy Hy. apply H2; lra.
  - intros x y Hx Hxy Hy. apply H3; lra.
Qed.

Definition right_end (f : R -> R) (b0 : R) (s : golden_state) : Prop := g_b s = b0 \/ f (g_d s) < f (g_b s).

Lemma step_right : forall f a0 b0 A B m s, strictly_unimodal f A B m -> A <= a0 -> b0 <= B -> good_state f a0 b0 s ->
  g_a s <= m <= g_b s -> right_end f b0 s ->
  right_end f b0 (golden_step f s) /\ g_a (golden_step f s) <= m <= g_b (golden_step f s).
Proof.
  intros f a0 b0 A B m s U HA HB [A1 [B1 [Hh [Eb [Ec [Ed [Fc Fd]]]]]]] Hm RE. destruct phi_facts as [P1 [P2 P3]].
  assert (0 < invphi * g_h s < g_h s) by nra. assert ((1 - invphi) * g_h s < invphi * g_h s) by nra.
  assert (0 < (1 - invphi) * g_h s) by nra. assert (Q : invphi * (invphi * g_h s) = (1 - invphi) * g_h s) by (rewrite <- Rmult_assoc, P3; auto).
  destruct U as [U1 [U2 U3]]. unfold golden_step, right_end in *.
  destruct (Rlt_dec (g_fc s) (g_fd s)) as [L|L]; cbn [g_a g_b g_d].
  - rewrite Fc, Fd in L. split; [right; auto|]. split; [lra|]. destruct (Rle_lt_dec m (g_d s)); auto.
    specialize (U2 (g_c s) (g_d s) ltac:(lra) ltac:(lra) ltac:(lra)). lra.
  - rewrite Fc, Fd in L. assert (Hcm : g_c s <= m).
    { destruct (Rle_lt_dec (g_c s) m); auto. specialize (U3 (g_c s) (g_d s) ltac:(lra) ltac:(lra) ltac:(lra)). lra. }
    split; [|lra]. destruct RE as [RE|RE]; [left; auto|]. right.
    assert (Dn : g_d s < g_c s + invphi * (invphi * g_h s) < g_b s).
    { rewrite Q. split; [|lra]. rewrite Ec, Ed. nra. }
    destruct (Rle_lt_dec m (g_c s + invphi * (invphi * g_h s))) as [G|G].
    + apply U3; lra.
    + specialize (U2 (g_d s) (g_c s + invphi * (invphi * g_h s)) ltac:(lra) ltac:(lra) ltac:(lra)). lra.
Qed.

Lemma loop_right : forall f a0 b0 A B m n s, strictly_unimodal f A B m -> A <= a0 -> b0 <= B -> good_state f a0 b0 s ->
  g_a s <= m <= g_b s -> right_end f b0 s ->
  right_end f b0 (golden_loop f n s) /\ g_a (golden_loop f n s) <= m <= g_b (golden_loop f n s).
Proof.
  intros f a0 b0 A B m. induction n; intros s U HA HB G Hm RE; simpl; auto.
  destruct (step_right f a0 b0 A B m s U HA HB G Hm RE). apply IHn; auto. apply step_good; auto.
Qed.

Lemma golden_right : forall f A B m tol a b, strictly_unimodal f A B m -> A <= a -> b <= B -> a < b -> a <= m -> 0 < tol ->
  tol <= b - m ->
  exists loss p, golden_section_search f tol a b = Val (loss, p) /\ Rabs (p - m) <= tol / 2 /\
    forall t, m < t <= B -> f t < loss -> t - m <= tol.
Proof.
  intros f A B m tol a b U HA HB Hab Ham T Hbm.
  destruct (golden_unimodal f tol a b m Hab T (sub_unimodal _ _ _ _ _ _ U HA HB ltac:(lra))) as [loss [p [E D]]].
  exists loss, p. split; auto. split; auto. intros t Ht L. rewrite search_val in E by auto.
  set (s := golden_loop _ _ _) in E. assert (G0 := start_good f a b Hab).
  assert (G : good_state f a b s) by (apply loop_good; auto).
  destruct (loop_right f a b A B m (Z.to_nat (golden_steps tol (b - a) - 1)) _ U HA HB G0) as [RE Hm].
  { unfold golden_start; cbn [g_a g_b]; lra. } { left; reflexivity. }
  change (golden_loop f (Z.to_nat (golden_steps tol (b - a) - 1)) (golden_start f a b)) with s in RE, Hm.
  assert (S1 : invphi * g_h s <= tol).
  { unfold s. rewrite loop_h. unfold golden_start. cbn [g_h]. apply enough_steps; lra. }
  destruct G as [A1 [B1 [Hh [Eb [Ec [Ed [Fc Fd]]]]]]]. destruct phi_facts as [P1 [P2 P3]].
  assert (0 < invphi * g_h s < g_h s) by nra. assert ((1 - invphi) * g_h s < invphi * g_h s) by nra.
  assert (0 < (1 - invphi) * g_h s) by nra.
  assert (R1 : forall u, m <= u -> u <= B -> f t < f u -> t < u).
  { intros u Hu Hu2 F. destruct (Rle_lt_dec u t) as [[G|G]|G]; auto.
    - destruct U as [_ [_ U3]]. specialize (U3 u t ltac:(lra) G ltac:(lra)). lra.
    - subst u. lra. }
  destruct U as [U1 [U2 U3]].
  unfold golden_end in E. destruct (Rlt_dec (g_fc s) (g_fd s)) as [F|F].
  - assert (loss = g_fc s) by congruence. subst loss. rewrite Fc in *. rewrite Fd in F.
    assert (Hd : m <= g_d s). { destruct (Rle_lt_dec m (g_d s)); auto. specialize (U2 (g_c s) (g_d s) ltac:(lra) ltac:(lra) ltac:(lra)). lra. }
    specialize (R1 (g_d s) Hd ltac:(lra) ltac:(lra)). lra.
  - assert (loss = g_fd s) by congruence. subst loss. rewrite Fd in *. rewrite Fc in F.
    assert (Hc : g_c s <= m). { destruct (Rle_lt_dec (g_c s) m); auto. specialize (U3 (g_c s) (g_d s) ltac:(lra) ltac:(lra) ltac:(lra)). lra. }
    destruct (Rle_lt_dec m (g_d s)) as [Hd|Hd].
    + specialize (R1 (g_d s) Hd ltac:(lra) L). lra.
    + destruct RE as [RE|RE]; [lra|]. specialize (R1 (g_b s) ltac:(lra) ltac:(lra) ltac:(lra)). lra.
Qed.
