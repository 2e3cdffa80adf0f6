(** * Proofs about the energy distance with the Euclidean distance.

    The Gaussian kernels are positive semidefinite, and the Euclidean distance is, up to a constant
    factor, the integral over the scales [r] of one minus the Gaussian kernel [exp (-(|u-v|/r)^2)]. *)

From Coq Require Import Reals List ZArith Lia Lra Psatz.
From Coquelicot Require Import Rcomplements Rbar Hierarchy RInt Continuity Derive AutoDerive Lim_seq.
From Verif Require Import Num Spec Spec_Optim Spec_Energy L_Num L_Energy.
Import ListNotations.
Open Scope R_scope.

(** ** Gaussian kernels *)

Definition dot (k : nat) (u v : list R) : R := sumn k (fun j => nth j u 0 * nth j v 0).
Definition sqd (k : nat) (u v : list R) : R := sumn k (fun j => (nth j u 0 - nth j v 0) ^ 2).

Definition reweighted (h : list R -> R) (S : weighted (list R)) : weighted (list R) :=
  map (fun p => (fst p * h (snd p), snd p)) S.

Lemma expected_reweighted : forall h f S T,
  expected f (reweighted h S) (reweighted h T) = expected (fun u v => h u * h v * f u v) S T.
Proof.
  intros h f S T. unfold expected, reweighted. rewrite map_map. apply rsum_map_ext. intros p _.
  rewrite map_map. apply rsum_map_ext. intros q _. simpl. ring.
Qed.

Lemma dot_pow_psd : forall k n S, 0 <= expected (fun u v => dot k u v ^ n) S S.
Proof.
  intros k n. induction n as [|n IH]; intros S.
  - rewrite (expected_ext _ (fun u v => (fun _ => 1) u * (fun _ => 1) v)) by (intros; simpl; ring).
    rewrite (expected_product (fun _ => 1) (fun _ => 1)). apply Rle_0_sqr.
  - rewrite (expected_ext _ (fun u v => sumn k (fun j => nth j u 0 * nth j v 0 * dot k u v ^ n))).
    + rewrite (expected_sumn k (fun j u v => nth j u 0 * nth j v 0 * dot k u v ^ n)).
      apply sumn_nonneg. intros j _.
      rewrite <- (expected_reweighted (fun u => nth j u 0) (fun u v => dot k u v ^ n)). apply IH.
    + intros p q _ _. simpl. unfold dot at 1. rewrite <- sumn_scal_r. reflexivity.
Qed.

Lemma expected_lim : forall {A} (f : nat -> A -> A -> R) (F : A -> A -> R) (P Q : weighted A),
  (forall u v, is_lim_seq (fun n => f n u v) (F u v)) ->
  is_lim_seq (fun n => expected (f n) P Q) (expected F P Q).
Proof.
  intros A f F P Q H. induction P as [|p P IH].
  - apply is_lim_seq_const.
  - apply (is_lim_seq_plus' (fun n => rsum (map (fun q => fst p * fst q * f n (snd p) (snd q)) Q))); auto.
    clear IH. induction Q as [|q Q IHQ].
    + apply is_lim_seq_const.
    + apply (is_lim_seq_plus' (fun n => fst p * fst q * f n (snd p) (snd q))); auto.
      apply (is_lim_seq_scal_l (fun n => f n (snd p) (snd q)) (fst p * fst q) (F (snd p) (snd q))).
      apply H.
Qed.

Lemma exp_lim : forall x, is_lim_seq (fun n => sum_f_R0 (fun i => / INR (fact i) * x ^ i) n) (exp x).
Proof.
  intros x. apply is_lim_seq_Reals. unfold exp. destruct (exist_exp x) as [l Hl]. simpl.
  exact Hl.
Qed.

Lemma expected_sum_f : forall {A} (f : nat -> A -> A -> R) (P Q : weighted A) n,
  expected (fun u v => sum_f_R0 (fun i => f i u v) n) P Q =
  sum_f_R0 (fun i => expected (f i) P Q) n.
Proof.
  intros A f P Q n. induction n; simpl; auto. rewrite expected_plus, IHn. reflexivity.
Qed.

Lemma exp_dot_psd : forall k c S, 0 <= c -> 0 <= expected (fun u v => exp (c * dot k u v)) S S.
Proof.
  intros k c S Hc.
  assert (L : is_lim_seq (fun n => expected (fun u v =>
      sum_f_R0 (fun i => / INR (fact i) * (c * dot k u v) ^ i) n) S S)
      (expected (fun u v => exp (c * dot k u v)) S S)).
  { apply (expected_lim (fun n u v => sum_f_R0 (fun i => / INR (fact i) * (c * dot k u v) ^ i) n)).
    intros. apply exp_lim. }
  apply (is_lim_seq_le (fun _ => 0) _ 0 _) in L; [exact L| |apply is_lim_seq_const].
  intros n. rewrite (expected_sum_f (fun i u v => / INR (fact i) * (c * dot k u v) ^ i)).
  apply cond_pos_sum. intros i.
  rewrite (expected_ext _ (fun u v => (/ INR (fact i) * c ^ i) * dot k u v ^ i))
    by (intros; rewrite Rpow_mult_distr; ring).
  rewrite (expected_scal _ (fun u v => dot k u v ^ i)). apply Rmult_le_pos; [|apply dot_pow_psd].
  apply Rmult_le_pos; [|apply pow_le; auto]. left. apply Rinv_0_lt_compat, INR_fact_lt_0.
Qed.

Lemma sqd_dot : forall k u v, sqd k u v = dot k u u + dot k v v - 2 * dot k u v.
Proof.
  intros. unfold sqd, dot. rewrite <- sumn_scal, <- sumn_plus, <- sumn_minus. apply sumn_ext.
  intros; ring.
Qed.

Lemma gauss_psd : forall k s S, 0 <= s -> 0 <= expected (fun u v => exp (- (s * sqd k u v))) S S.
Proof.
  intros k s S Hs.
  rewrite (expected_ext _ (fun u v => exp (- (s * dot k u u)) * exp (- (s * dot k v v))
                                      * exp (2 * s * dot k u v))).
  - rewrite <- (expected_reweighted (fun u => exp (- (s * dot k u u)))).
    apply exp_dot_psd. lra.
  - intros. rewrite <- !exp_plus. f_equal. rewrite sqd_dot. ring.
Qed.

(** ** The integral over the scales *)

Definition phi (z r : R) : R := 1 - exp (- (z / r) ^ 2).

Lemma phi_cont : forall z r, r <> 0 -> continuous (phi z) r.
Proof.
  intros z r Hr. apply (ex_derive_continuous (phi z) r). unfold phi. auto_derive. auto.
Qed.

Lemma phi_ex : forall z a b, 0 < a -> 0 < b -> ex_RInt (phi z) a b.
Proof.
  intros z a b Ha Hb. apply (ex_RInt_continuous (V := R_CompleteNormedModule)).
  intros r Hr. apply phi_cont. assert (0 < Rmin a b) by (apply Rmin_glb_lt; auto). lra.
Qed.

Lemma phi_range : forall z r, 0 <= phi z r <= 1.
Proof.
  intros. unfold phi. pose proof (exp_pos (- (z / r) ^ 2)).
  assert (exp (- (z / r) ^ 2) <= exp 0).
  { destruct (Req_dec (z / r) 0) as [->|N].
    - right. f_equal. ring.
    - left. apply exp_increasing. assert (0 < (z / r) ^ 2) by (apply pow2_gt_0; auto). lra. }
  rewrite exp_0 in H0. lra.
Qed.

Lemma phi_tail : forall z r, phi z r <= (z / r) ^ 2.
Proof. intros. unfold phi. pose proof (exp_ineq1_le (- (z / r) ^ 2)). lra. Qed.

Lemma phi_scale : forall z a b, 0 < z -> 0 < a -> 0 < b ->
  RInt (phi z) a b = z * RInt (phi 1) (a / z) (b / z).
Proof.
  intros z a b Hz Ha Hb.
  assert (X : ex_RInt (phi 1) (a / z) (b / z)).
  { apply phi_ex; apply Rdiv_lt_0_compat; auto. }
  apply is_RInt_unique.
  replace (a / z) with (/ z * a + 0) in * by (field; lra).
  replace (b / z) with (/ z * b + 0) in * by (field; lra).
  apply (RInt_correct (phi 1)) in X.
  pose proof (is_RInt_comp_lin (phi 1) (/ z) 0 a b _ X) as Y.
  apply (is_RInt_scal _ a b z) in Y.
  match type of Y with is_RInt _ _ _ ?l => set (v := l) in * end.
  change (z * RInt (phi 1) (/ z * a + 0) (/ z * b + 0)) with v.
  refine (is_RInt_ext _ _ _ _ _ _ Y).
  intros r Hr. assert (0 < Rmin a b) by (apply Rmin_glb_lt; auto).
  unfold scal; simpl; unfold mult; simpl. unfold phi.
  replace (z / r) with (1 / (/ z * r + 0)) by (field; lra).
  field. lra.
Qed.

Definition K (T : R) : R := RInt (phi 1) (/ T) T.

Lemma phi_bound : forall z M a b, 0 < a -> 0 < b ->
  (forall r, Rmin a b <= r <= Rmax a b -> phi z r <= M) ->
  Rabs (RInt (phi z) a b) <= Rabs (b - a) * M.
Proof.
  intros z M a b Ha Hb H.
  pose proof (phi_ex z a b Ha Hb) as X. apply (RInt_correct (phi z)) in X.
  apply (norm_RInt_le_const_abs (phi z) a b _ M); auto.
  intros r Hr. unfold norm; simpl; unfold abs; simpl. rewrite Rabs_right.
  - apply H. exact Hr.
  - pose proof (phi_range z r). lra.
Qed.

Definition slack (z : R) : R :=
  if Req_EM_T z 0 then 0 else z * (Rabs (1 - / z) + Rabs (1 - / z) * Rmax 1 (z ^ 2)).

Lemma slack_nonneg : forall z, 0 <= z -> 0 <= slack z.
Proof.
  intros z Hz. unfold slack. destruct Req_EM_T; [lra|].
  apply Rmult_le_pos; auto. pose proof (Rabs_pos (1 - / z)). pose proof (Rmax_l 1 (z ^ 2)). nra.
Qed.

Lemma phi_0 : forall r, phi 0 r = 0.
Proof. intros. unfold phi. replace (- (0 / r) ^ 2) with 0 by (unfold Rdiv; ring). rewrite exp_0. ring. Qed.

Lemma scale_linear : forall z T, 0 <= z -> 1 <= T ->
  Rabs (RInt (phi z) (/ T) T - z * K T) <= slack z / T.
Proof.
  intros z T Hz HT. unfold slack.
  assert (Ti : 0 < / T) by (apply Rinv_0_lt_compat; lra).
  destruct (Req_EM_T z 0) as [->|Nz].
  - assert (E : RInt (phi 0) (/ T) T = 0).
    { apply is_RInt_unique. apply (is_RInt_ext (fun _ => 0)).
      - intros r _. now rewrite phi_0.
      - pose proof (is_RInt_const (/ T) T 0) as C. change (scal (T - / T) 0) with ((T - / T) * 0) in C.
        rewrite Rmult_0_r in C. exact C. }
    rewrite E. replace (0 - 0 * K T) with 0 by ring. rewrite Rabs_R0. lra.
  - assert (Pz : 0 < z) by lra. assert (Pzi : 0 < / z) by (apply Rinv_0_lt_compat; auto).
    rewrite phi_scale by lra. unfold K.
    set (al := / T / z). set (be := T / z).
    assert (Pa : 0 < al) by (unfold al; apply Rdiv_lt_0_compat; auto).
    assert (Pb : 0 < be) by (unfold be; apply Rdiv_lt_0_compat; lra).
    assert (E : RInt (phi 1) al be = RInt (phi 1) al (/ T) + (RInt (phi 1) (/ T) T + RInt (phi 1) T be)).
    { rewrite <- (RInt_Chasles (phi 1) al (/ T) be), <- (RInt_Chasles (phi 1) (/ T) T be)
        by (apply phi_ex; lra). reflexivity. }
    assert (B1 : Rabs (RInt (phi 1) al (/ T)) <= Rabs (/ T - al) * 1).
    { apply phi_bound; auto. intros. apply phi_range. }
    assert (M : 0 < Rmin T be) by (apply Rmin_glb_lt; lra).
    assert (B2 : Rabs (RInt (phi 1) T be) <= Rabs (be - T) * (/ (Rmin T be) ^ 2)).
    { apply phi_bound; auto; [lra|]. intros r Hr. eapply Rle_trans; [apply phi_tail|].
      replace ((1 / r) ^ 2) with (/ r ^ 2) by (field; lra).
      apply Rinv_le_contravar; [apply pow_lt; auto|]. apply pow_incr. lra. }
    assert (E1 : Rabs (/ T - al) = Rabs (1 - / z) / T).
    { unfold al. replace (/ T - / T / z) with ((1 - / z) * / T) by (field; lra).
      rewrite Rabs_mult, (Rabs_right (/ T)) by lra. reflexivity. }
    assert (E2 : Rabs (be - T) * (/ (Rmin T be) ^ 2) <= Rabs (1 - / z) * Rmax 1 (z ^ 2) / T).
    { assert (E2a : Rabs (be - T) = Rabs (1 - / z) * T).
      { unfold be. replace (T / z - T) with (- ((1 - / z) * T)) by (field; lra).
        rewrite Rabs_Ropp, Rabs_mult, (Rabs_right T) by lra. reflexivity. }
      rewrite E2a.
      assert (E2b : / (Rmin T be) ^ 2 <= Rmax 1 (z ^ 2) * / T ^ 2).
      { unfold Rmin. destruct (Rle_dec T be).
        - rewrite <- (Rmult_1_l (/ T ^ 2)) at 1. apply Rmult_le_compat_r; [|apply Rmax_l].
          left. apply Rinv_0_lt_compat, pow_lt. lra.
        - unfold be. replace (/ (T / z) ^ 2) with (z ^ 2 * / T ^ 2) by (field; lra).
          apply Rmult_le_compat_r; [|apply Rmax_r].
          left. apply Rinv_0_lt_compat, pow_lt. lra. }
      apply (Rle_trans _ (Rabs (1 - / z) * T * (Rmax 1 (z ^ 2) * / T ^ 2))).
      - apply Rmult_le_compat_l; auto. apply Rmult_le_pos; [apply Rabs_pos|lra].
      - right. field. lra. }
    rewrite E.
    replace (z * (RInt (phi 1) al (/ T) + (RInt (phi 1) (/ T) T + RInt (phi 1) T be))
             - z * RInt (phi 1) (/ T) T)
      with (z * (RInt (phi 1) al (/ T) + RInt (phi 1) T be)) by ring.
    rewrite Rabs_mult, (Rabs_right z) by lra.
    replace (z * (Rabs (1 - / z) + Rabs (1 - / z) * Rmax 1 (z ^ 2)) / T)
      with (z * (Rabs (1 - / z) / T + Rabs (1 - / z) * Rmax 1 (z ^ 2) / T)) by (field; lra).
    apply Rmult_le_compat_l; auto.
    eapply Rle_trans; [apply Rabs_triang|]. rewrite E1 in B1. lra.
Qed.

Lemma K_nonneg : forall T, 1 <= T -> 0 <= K T.
Proof.
  intros T HT. assert (0 < / T) by (apply Rinv_0_lt_compat; lra).
  assert (/ T <= 1). { rewrite <- Rinv_1. apply Rinv_le_contravar; lra. }
  apply RInt_ge_0; [lra|apply phi_ex; lra|]. intros. apply phi_range.
Qed.

(** ** Points that carry weight *)

Definition eqr (u v : list R) : R := if same_row u v then 1 else 0.

Lemma weight_at_zero : forall (S : weighted (list R)) x, ~ In x (map snd S) -> weight_at S x = 0.
Proof.
  intros S x. unfold weight_at. induction S as [|p S IH]; simpl; auto.
  intros H. rewrite IH by tauto. destruct same_row; [tauto|ring].
Qed.

Lemma by_points : forall (S : weighted (list R)) (g : list R -> R) (L : list (list R)),
  NoDup L -> (forall p, In p S -> In (snd p) L) ->
  rsum (map (fun p => fst p * g (snd p)) S) = rsum (map (fun y => weight_at S y * g y) L).
Proof.
  intros S g L HL. induction S as [|p S IH]; intros H.
  - unfold weight_at. simpl. rewrite (rsum_map_ext _ (fun _ => 0 * 0)) by (intros; ring).
    rewrite (rsum_map_scal 0 (fun _ => 0)). ring.
  - simpl. rewrite IH by (intros; apply H; simpl; auto).
    unfold weight_at. simpl.
    rewrite (rsum_map_ext (fun y => ((if same_row (snd p) y then fst p else 0) +
        rsum (map (fun p0 => if same_row (snd p0) y then fst p0 else 0) S)) * g y)
      (fun y => (if same_row (snd p) y then fst p else 0) * g y
        + rsum (map (fun p0 => if same_row (snd p0) y then fst p0 else 0) S) * g y))
      by (intros; ring).
    rewrite rsum_map_plus. f_equal.
    assert (I : In (snd p) L) by (apply H; simpl; auto).
    clear IH H. induction L as [|y L IHL]; [destruct I|].
    simpl. inversion HL; subst. destruct (same_row (snd p) y) as [->|N].
    + rewrite (rsum_map_ext _ (fun _ => 0 * 0)).
      * rewrite (rsum_map_scal 0 (fun _ => 0)). ring.
      * intros z Hz. destruct same_row; [subst; contradiction|ring].
    + destruct I as [I|I]; [congruence|]. rewrite <- (IHL H2 I). ring.
Qed.

Lemma weight_at_eqr : forall S x, weight_at S x = rsum (map (fun p => fst p * eqr (snd p) x) S).
Proof. intros. apply rsum_map_ext. intros p _. unfold eqr. destruct same_row; ring. Qed.

Lemma expected_inner : forall (f : list R -> list R -> R) S,
  expected f S S = rsum (map (fun p => fst p * rsum (map (fun q => fst q * f (snd p) (snd q)) S)) S).
Proof.
  intros. unfold expected. apply rsum_map_ext. intros p _. rewrite <- rsum_map_scal.
  apply rsum_map_ext. intros; ring.
Qed.

Lemma eqr_form : forall S x, weight_at S x ^ 2 <= expected eqr S S.
Proof.
  intros S x. rewrite expected_inner.
  set (L := nodup same_row (map snd S)).
  assert (ND : NoDup L) by apply NoDup_nodup.
  assert (Hin : forall p, In p S -> In (snd p) L).
  { intros p Hp. apply nodup_In. now apply in_map. }
  rewrite (by_points S (fun y => rsum (map (fun q => fst q * eqr y (snd q)) S)) L ND Hin).
  assert (E : forall y, rsum (map (fun q => fst q * eqr y (snd q)) S) = weight_at S y).
  { intros y. rewrite weight_at_eqr. apply rsum_map_ext. intros q _. unfold eqr.
    destruct (same_row y (snd q)), (same_row (snd q) y); congruence || ring. }
  rewrite (rsum_map_ext _ (fun y => weight_at S y ^ 2)) by (intros; rewrite E; ring).
  assert (P : forall l, 0 <= rsum (map (fun y => weight_at S y ^ 2) l)).
  { intros l. apply rsum_nonneg. apply Forall_forall. intros v Hv. apply in_map_iff in Hv.
    destruct Hv as (y & <- & _). apply pow2_ge_0. }
  destruct (in_dec same_row x L) as [I|I].
  - clear ND Hin. induction L as [|y L IHL]; [destruct I|]. simpl.
    pose proof (P L). destruct I as [->|I].
    + simpl in *. lra.
    + specialize (IHL I). pose proof (pow2_ge_0 (weight_at S y)). simpl in *. lra.
  - rewrite weight_at_zero. 2: { intros H. apply I. now apply nodup_In. }
    specialize (P L). simpl in *. lra.
Qed.

Lemma null_form : forall (f : list R -> list R -> R) S, (forall x, weight_at S x = 0) -> expected f S S = 0.
Proof.
  intros f S H. rewrite expected_inner.
  set (L := nodup same_row (map snd S)).
  assert (ND : NoDup L) by apply NoDup_nodup.
  assert (Hin : forall p, In p S -> In (snd p) L).
  { intros p Hp. apply nodup_In. now apply in_map. }
  rewrite (by_points S (fun y => rsum (map (fun q => fst q * f y (snd q)) S)) L ND Hin).
  rewrite (rsum_map_ext _ (fun _ => 0 * 0)) by (intros; rewrite H; ring).
  rewrite (rsum_map_scal 0 (fun _ => 0)). ring.
Qed.

(** ** Bounds of quadratic forms *)

Definition absolute (S : weighted (list R)) : weighted (list R) := map (fun p => (Rabs (fst p), snd p)) S.

Lemma expected_abs : forall (f g : list R -> list R -> R) P Q,
  (forall p q, In p P -> In q Q -> Rabs (f (snd p) (snd q)) <= g (snd p) (snd q)) ->
  Rabs (expected f P Q) <= expected g (absolute P) (absolute Q).
Proof.
  intros f g P Q H. induction P as [|p P IH].
  - rewrite !expected_nil_l. rewrite Rabs_R0. right. reflexivity.
  - change (absolute (p :: P)) with ((Rabs (fst p), snd p) :: absolute P).
    rewrite !expected_cons_l. eapply Rle_trans; [apply Rabs_triang|]. apply Rplus_le_compat.
    + assert (Hp : forall q, In q Q -> Rabs (f (snd p) (snd q)) <= g (snd p) (snd q))
        by (intros; apply H; simpl; auto).
      clear H IH. induction Q as [|q Q IHQ].
      * simpl. rewrite Rabs_R0. lra.
      * simpl. eapply Rle_trans; [apply Rabs_triang|]. apply Rplus_le_compat.
        -- rewrite !Rabs_mult. apply Rmult_le_compat_l; [|apply Hp; simpl; auto].
           apply Rmult_le_pos; apply Rabs_pos.
        -- apply IHQ. intros. apply Hp. simpl; auto.
    + apply IH. intros. apply H; simpl; auto.
Qed.

Lemma absolute_nonneg : forall (g : list R -> list R -> R) P Q,
  (forall u v, 0 <= g u v) -> 0 <= expected g (absolute P) (absolute Q).
Proof.
  intros g P Q H. eapply Rle_trans; [apply Rabs_pos|].
  apply (expected_abs (fun _ _ => 0) g). intros. rewrite Rabs_R0. apply H.
Qed.

Lemma sqd_nonneg : forall k u v, 0 <= sqd k u v.
Proof. intros. apply sumn_nonneg. intros. apply pow2_ge_0. Qed.

Lemma sqd_same : forall k u, sqd k u u = 0.
Proof. intros. apply sumn_0. intros. ring. Qed.

Lemma sqd_pos : forall k u v, length u = k -> length v = k -> u <> v -> 0 < sqd k u v.
Proof.
  intros k u v Lu Lv N. destruct (Rle_lt_or_eq_dec _ _ (sqd_nonneg k u v)) as [|E]; auto.
  exfalso. apply N. apply (nth_ext _ _ 0 0); [congruence|]. intros j Hj. rewrite Lu in Hj.
  symmetry in E. unfold sqd in E.
  pose proof (sumn_zero_all k _ (fun i _ => pow2_ge_0 _) E j Hj) as Z. cbv beta in Z.
  assert (nth j u 0 - nth j v 0 = 0) by nra. lra.
Qed.

Lemma euclidean_sqd : forall k u v, euclidean k u v = sqrt (sqd k u v).
Proof. reflexivity. Qed.

Lemma euclidean_sym : forall k u v, euclidean k u v = euclidean k v u.
Proof. intros. unfold euclidean. f_equal. apply sumn_ext. intros; ring. Qed.

Lemma manhattan_sym : forall k u v, manhattan k u v = manhattan k v u.
Proof. intros. unfold manhattan. apply sumn_ext. intros. apply Rabs_minus_sym. Qed.

Lemma exp_neg_inv : forall x, 0 < x -> exp (- x) <= / x.
Proof.
  intros x Hx. rewrite exp_Ropp. apply Rinv_le_contravar; auto.
  pose proof (exp_ineq1_le x). lra.
Qed.

Definition gap (k : nat) (u v : list R) : R := if same_row u v then 0 else / sqd k u v.

Lemma gap_nonneg : forall k u v, 0 <= gap k u v.
Proof.
  intros. unfold gap. destruct same_row; [lra|].
  destruct (Rle_lt_or_eq_dec _ _ (sqd_nonneg k u v)) as [H|H].
  - left. now apply Rinv_0_lt_compat.
  - rewrite <- H, Rinv_0. lra.
Qed.

Definition scale_form (k : nat) (S : weighted (list R)) (r : R) : R :=
  expected (fun u v => exp (- (euclidean k u v / r) ^ 2)) S S.

Lemma exponent : forall k u v r, r <> 0 -> (euclidean k u v / r) ^ 2 = / r ^ 2 * sqd k u v.
Proof.
  intros. rewrite euclidean_sqd. replace ((sqrt (sqd k u v) / r) ^ 2)
    with (sqrt (sqd k u v) * sqrt (sqd k u v) * / r ^ 2) by (field; auto).
  rewrite sqrt_sqrt by apply sqd_nonneg. ring.
Qed.

Lemma scale_form_nonneg : forall k S r, r <> 0 -> 0 <= scale_form k S r.
Proof.
  intros k S r Hr. unfold scale_form.
  rewrite (expected_ext _ (fun u v => exp (- (/ r ^ 2 * sqd k u v)))).
  - apply gauss_psd. left. apply Rinv_0_lt_compat. apply pow2_gt_0. auto.
  - intros. now rewrite exponent.
Qed.

Lemma scale_form_small : forall k S r x, rows_of k S -> 0 < r ->
  weight_at S x ^ 2 - r ^ 2 * expected (gap k) (absolute S) (absolute S) <= scale_form k S r.
Proof.
  intros k S r x HS Hr. unfold scale_form.
  rewrite (expected_ext (fun u v => exp (- (euclidean k u v / r) ^ 2)) (fun u v => eqr u v + (exp (- (euclidean k u v / r) ^ 2) - eqr u v)))
    by (intros; ring).
  rewrite expected_plus. pose proof (eqr_form S x) as E.
  assert (B : Rabs (expected (fun u v => exp (- (euclidean k u v / r) ^ 2) - eqr u v) S S)
              <= expected (fun u v => r ^ 2 * gap k u v) (absolute S) (absolute S)).
  { apply expected_abs. intros p q Hp Hq. rewrite exponent by lra. unfold eqr, gap.
    destruct same_row as [->|N].
    - rewrite sqd_same, Rmult_0_r, Ropp_0, exp_0. replace (1 - 1) with 0 by ring. rewrite Rabs_R0. lra.
    - rewrite Rminus_0_r. rewrite Rabs_right by (left; apply exp_pos).
      assert (P : 0 < sqd k (snd p) (snd q)) by (apply sqd_pos; auto).
      assert (P2 : 0 < r ^ 2) by (apply pow_lt; auto).
      eapply Rle_trans; [apply exp_neg_inv|].
      + apply Rmult_lt_0_compat; auto. now apply Rinv_0_lt_compat.
      + right. field. split; lra. }
  rewrite (expected_scal (r ^ 2) (gap k)) in B.
  pose proof (Rle_abs (- expected (fun u v => exp (- (euclidean k u v / r) ^ 2) - eqr u v) S S)) as B'.
  rewrite Rabs_Ropp in B'. lra.
Qed.

Lemma phi_form : forall k S r, rsum (map fst S) = 0 -> 
  expected (fun u v => phi (euclidean k u v) r) S S = - scale_form k S r.
Proof.
  intros k S r H. unfold scale_form, phi.
  rewrite (expected_ext _ (fun u v => (fun _ => 1) u * (fun _ => 1) v
      + (-1) * exp (- (euclidean k u v / r) ^ 2))) by (intros; ring).
  rewrite expected_plus, (expected_product (fun _ => 1) (fun _ => 1)).
  rewrite (expected_scal (-1) (fun u v => exp (- (euclidean k u v / r) ^ 2))).
  rewrite (rsum_map_ext (fun q => fst q * 1) fst) by (intros; ring). rewrite H. ring.
Qed.

Lemma scale_form_integral : forall k S a b, rsum (map fst S) = 0 -> 0 < a -> 0 < b ->
  is_RInt (scale_form k S) a b (- expected (fun u v => RInt (phi (euclidean k u v)) a b) S S).
Proof.
  intros k S a b H Ha Hb.
  apply (is_RInt_ext (fun r => opp (expected (fun u v => phi (euclidean k u v) r) S S))).
  - intros r _. rewrite phi_form by auto. unfold opp; simpl. ring.
  - apply (is_RInt_opp (fun r => expected (fun u v => phi (euclidean k u v) r) S S)).
    apply (expected_RInt (fun u v => phi (euclidean k u v)) (fun u v => RInt (phi (euclidean k u v)) a b)).
    intros p q _ _. apply (RInt_correct (phi (euclidean k (snd p) (snd q)))). now apply phi_ex.
Qed.

Theorem euclidean_negative : forall k S x, rows_of k S -> rsum (map fst S) = 0 ->
  weight_at S x <> 0 -> expected (euclidean k) S S < 0.
Proof.
  intros k S x HS H0 Hx.
  set (m := weight_at S x ^ 2). assert (Hm : 0 < m) by (apply pow2_gt_0; auto).
  set (A := expected (gap k) (absolute S) (absolute S)).
  assert (HA : 0 <= A) by (apply absolute_nonneg, gap_nonneg).
  set (r0 := Rmin 1 (m / (2 * (A + 1)))).
  assert (P1 : 0 < m / (2 * (A + 1))) by (apply Rdiv_lt_0_compat; lra).
  assert (R0 : 0 < r0) by (unfold r0; apply Rmin_glb_lt; lra).
  assert (R1 : r0 <= 1) by apply Rmin_l.
  assert (R2 : r0 * A <= m / 2).
  { assert (r0 <= m / (2 * (A + 1))) by apply Rmin_r.
    apply (Rle_trans _ (m / (2 * (A + 1)) * A)).
    - apply Rmult_le_compat_r; auto.
    - apply (Rle_trans _ (m / (2 * (A + 1)) * (A + 1))).
      + apply Rmult_le_compat_l; lra.
      + right. field. lra. }
  assert (Low : forall r, 0 < r <= r0 -> m / 2 <= scale_form k S r).
  { intros r Hr. pose proof (scale_form_small k S r x HS (proj1 Hr)) as L. fold m A in L.
    assert (r ^ 2 * A <= m / 2); [|lra].
    apply (Rle_trans _ (r0 * A)); auto. apply Rmult_le_compat_r; auto. simpl. nra. }
  set (eta := r0 / 2 * (m / 2)).
  assert (Eta : 0 < eta) by (unfold eta; apply Rmult_lt_0_compat; lra).
  set (J := fun T => expected (fun u v => RInt (phi (euclidean k u v)) (/ T) T) S S).
  assert (HJ : forall T, 2 / r0 <= T -> J T <= - eta).
  { intros T HT.
    assert (T2 : 2 <= T).
    { apply (Rle_trans _ (2 / r0)); auto. apply (Rmult_le_reg_r r0); auto.
      replace (2 / r0 * r0) with 2 by (field; lra). lra. }
    assert (Ti : 0 < / T) by (apply Rinv_0_lt_compat; lra).
    assert (Tr : / T <= r0 / 2).
    { replace (r0 / 2) with (/ (2 / r0)) by (field; lra). apply Rinv_le_contravar; auto.
      apply Rdiv_lt_0_compat; lra. }
    assert (I : RInt (scale_form k S) (/ T) T = - J T).
    { apply is_RInt_unique. apply scale_form_integral; auto. lra. }
    assert (X : forall a b, 0 < a -> 0 < b -> ex_RInt (scale_form k S) a b).
    { intros a b Ha Hb. eexists. apply scale_form_integral; auto. }
    rewrite <- (RInt_Chasles (scale_form k S) (/ T) (r0 / 2) T) in I by (apply X; lra).
    rewrite <- (RInt_Chasles (scale_form k S) (r0 / 2) r0 T) in I by (apply X; lra).
    assert (N1 : 0 <= RInt (scale_form k S) (/ T) (r0 / 2)).
    { apply RInt_ge_0; auto. apply X; lra. intros. apply scale_form_nonneg. lra. }
    assert (N3 : 0 <= RInt (scale_form k S) r0 T).
    { apply RInt_ge_0; auto. lra. apply X; lra. intros. apply scale_form_nonneg. lra. }
    assert (N2 : eta <= RInt (scale_form k S) (r0 / 2) r0).
    { replace eta with ((r0 - r0 / 2) * (m / 2)) by (unfold eta; field).
      apply (is_RInt_le (fun _ => m / 2) (scale_form k S) (r0 / 2) r0).
      - lra.
      - apply (is_RInt_const (r0 / 2) r0 (m / 2)).
      - apply (RInt_correct (scale_form k S)). apply X; lra.
      - intros. apply Low. lra. }
    unfold plus in I; simpl in I. lra. }
  set (E := expected (euclidean k) S S).
  set (B := expected (fun u v => slack (euclidean k u v)) (absolute S) (absolute S)).
  assert (HB : 0 <= B).
  { apply absolute_nonneg. intros. apply slack_nonneg. apply sqrt_pos. }
  assert (Lin : forall T, 1 <= T -> Rabs (J T - K T * E) <= B / T).
  { intros T HT. unfold J, E.
    rewrite <- (expected_scal (K T) (euclidean k)).
    replace (expected (fun u v => RInt (phi (euclidean k u v)) (/ T) T) S S
             - expected (fun u v => K T * euclidean k u v) S S)
      with (expected (fun u v => RInt (phi (euclidean k u v)) (/ T) T - euclidean k u v * K T) S S).
    - replace (B / T) with (expected (fun u v => / T * slack (euclidean k u v)) (absolute S) (absolute S)).
      + apply expected_abs. intros p q _ _. rewrite (Rmult_comm (/ T)).
        apply scale_linear; auto. apply sqrt_pos.
      + rewrite (expected_scal (/ T) (fun u v => slack (euclidean k u v))). fold B. unfold Rdiv. ring.
    - rewrite (expected_ext _ (fun u v => RInt (phi (euclidean k u v)) (/ T) T
          + (-1) * (K T * euclidean k u v))) by (intros; ring).
      rewrite expected_plus, (expected_scal (-1) (fun u v => K T * euclidean k u v)). ring. }
  set (T := Rmax (2 / r0) (B / eta + 1)).
  assert (T1 : 2 / r0 <= T) by apply Rmax_l.
  assert (T2 : B / eta + 1 <= T) by apply Rmax_r.
  assert (BE : 0 <= B / eta). { apply Rmult_le_pos; auto. left. now apply Rinv_0_lt_compat. }
  assert (T3 : 1 <= T) by lra.
  specialize (HJ T T1). specialize (Lin T T3). pose proof (K_nonneg T T3) as KT.
  assert (BT : B / T < eta).
  { apply (Rmult_lt_reg_r T); [lra|]. replace (B / T * T) with B by (field; lra).
    apply (Rlt_le_trans _ (eta * (B / eta + 1))).
    - replace (eta * (B / eta + 1)) with (B + eta) by (field; lra). lra.
    - apply Rmult_le_compat_l; lra. }
  pose proof (Rle_abs (- (J T - K T * E))) as Ab. rewrite Rabs_Ropp in Ab.
  destruct (Rlt_le_dec E 0) as [|NE]; auto. exfalso.
  assert (0 <= K T * E) by (apply Rmult_le_pos; auto). lra.
Qed.

Lemma weight_at_signed : forall P Q x, weight_at (P ++ negated Q) x = weight_at P x - weight_at Q x.
Proof.
  intros. rewrite !weight_at_eqr, map_app, rsum_app'. unfold negated. rewrite map_map. simpl.
  rewrite (rsum_map_ext (fun p => - fst p * eqr (snd p) x) (fun p => - (fst p * eqr (snd p) x)))
    by (intros; ring).
  rewrite rsum_opp. ring.
Qed.

Lemma rows_of_signed : forall k P Q, rows_of k P -> rows_of k Q -> rows_of k (P ++ negated Q).
Proof.
  intros k P Q HP HQ p Hp. apply in_app_or in Hp. destruct Hp as [Hp|Hp]; auto.
  unfold negated in Hp. apply in_map_iff in Hp. destruct Hp as (q & <- & Hq). simpl. auto.
Qed.

Lemma euclidean_positive : forall k P Q x, rows_of k P -> rows_of k Q ->
  total_weight P = total_weight Q -> weight_at P x <> weight_at Q x ->
  0 < energy (euclidean k) P Q.
Proof.
  intros k P Q x HP HQ HT Hx. rewrite energy_signed by (intros; apply euclidean_sym).
  assert (expected (euclidean k) (P ++ negated Q) (P ++ negated Q) < 0); [|lra].
  apply (euclidean_negative k _ x); [now apply rows_of_signed|now apply total_signed|].
  rewrite weight_at_signed. lra.
Qed.

Lemma same_weights_zero : forall (f : list R -> list R -> R) P Q, (forall u v, f u v = f v u) ->
  (forall x, weight_at P x = weight_at Q x) -> energy f P Q = 0.
Proof.
  intros f P Q Hf H. rewrite energy_signed by auto. rewrite null_form; [ring|].
  intros x. rewrite weight_at_signed, H. ring.
Qed.

(** Whether some point has different weights is decided on the finitely many points. *)
Lemma weights_decide : forall P Q,
  (forall x, weight_at P x = weight_at Q x) \/ exists x, weight_at P x <> weight_at Q x.
Proof.
  intros P Q. set (L := map snd P ++ map snd Q).
  assert (D : (forall x, In x L -> weight_at P x = weight_at Q x) \/ exists x, weight_at P x <> weight_at Q x).
  { induction L as [|y L [IH|IH]]; auto.
    - left. intros x [].
    - destruct (Req_dec (weight_at P y) (weight_at Q y)).
      + left. intros x [<-|Hx]; auto.
      + right. eauto. }
  destruct D as [D|D]; auto. left. intros x. destruct (in_dec same_row x L) as [I|I]; auto.
  unfold L in I. rewrite in_app_iff in I. rewrite !weight_at_zero by tauto. reflexivity.
Qed.

Lemma euclidean_nonneg : forall k P Q, rows_of k P -> rows_of k Q ->
  total_weight P = total_weight Q -> 0 <= energy (euclidean k) P Q.
Proof.
  intros k P Q HP HQ HT. destruct (weights_decide P Q) as [E|(x & N)].
  - right. symmetry. apply same_weights_zero; auto. apply euclidean_sym.
  - left. now apply (euclidean_positive k P Q x).
Qed.

Lemma euclidean_zero : forall k P Q, rows_of k P -> rows_of k Q ->
  total_weight P = total_weight Q ->
  (energy (euclidean k) P Q = 0 <-> forall x, weight_at P x = weight_at Q x).
Proof.
  intros k P Q HP HQ HT. split.
  - intros E. destruct (weights_decide P Q) as [H|(x & N)]; auto.
    pose proof (euclidean_positive k P Q x HP HQ HT N). lra.
  - intros. apply same_weights_zero; auto. apply euclidean_sym.
Qed.
