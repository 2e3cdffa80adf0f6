(** * Proofs: the loss of an average. *)

From Coq Require Import Reals List ZArith Lia Lra Permutation Bool.
From Verif Require Import Num Spec Spec_Metrics M_Metrics L_Num L_Metrics L_Metrics2 Spec_Losses L_Losses.
Import ListNotations.
Open Scope R_scope.

Lemma rmean_le : forall {A} (f g : A -> R) l, l <> [] -> (forall a, In a l -> f a <= g a) -> rmean (map f l) <= rmean (map g l).
Proof.
  intros A f g l NE H. unfold rmean. rewrite !map_length. unfold Rdiv. apply Rmult_le_compat_r.
  - left. apply Rinv_0_lt_compat, length_pos, NE.
  - apply rsum_map_le. exact H.
Qed.

Lemma rmean_scal : forall {A} k (f : A -> R) l, rmean (map (fun a => k * f a) l) = k * rmean (map f l).
Proof. intros A k f l. unfold rmean. rewrite !map_length, rsum_map_scal. unfold Rdiv. ring. Qed.

Lemma rmean_nonneg : forall {A} (f : A -> R) l, l <> [] -> (forall a, In a l -> 0 <= f a) -> 0 <= rmean (map f l).
Proof.
  intros A f l NE H. unfold rmean. rewrite map_length. apply Rmult_le_pos.
  - apply rsum_map_nonneg. exact H.
  - left. apply Rinv_0_lt_compat, length_pos, NE.
Qed.

Lemma sumn_rmean : forall {A} n (g : nat -> A -> R) l,
  sumn n (fun i => rmean (map (g i) l)) = rmean (map (fun a => sumn n (fun i => g i a)) l).
Proof.
  intros A n g l. unfold rmean. rewrite map_length.
  rewrite (sumn_ext n _ (fun i => rsum (map (g i) l) / INR (length l))) by (intros; rewrite map_length; reflexivity).
  rewrite sumn_div. f_equal. induction l as [|a l IH]; cbn [map rsum].
  - apply sumn_0. reflexivity.
  - rewrite sumn_plus, IH. reflexivity.
Qed.

(** Jensen with a supporting line at the mean. *)
Lemma jensen : forall {A} (x : A -> R) (f : R -> R) s m l, l <> [] -> m = rmean (map x l) ->
  (forall a, In a l -> f m + s * (x a - m) <= f (x a)) -> f m <= rmean (map (fun a => f (x a)) l).
Proof.
  intros A x f s m l NE Hm H. eapply Rle_trans; [|apply (rmean_le (fun a => f m + s * (x a - m))); assumption].
  unfold rmean. rewrite map_length. pose proof (length_pos l NE) as P.
  rewrite rsum_map_plus, rsum_map_scal, rsum_map_minus, !rsum_map_const.
  assert (E : rsum (map x l) = INR (length l) * m).
  { subst m. unfold rmean. rewrite map_length. field. lra. }
  rewrite E. right. field. lra.
Qed.

Lemma jensen_abs : forall {A} (x : A -> R) c m l, l <> [] -> m = rmean (map x l) ->
  Rabs (c - m) <= rmean (map (fun a => Rabs (c - x a)) l).
Proof.
  intros A x c m l NE Hm. destruct (Rle_dec 0 (c - m)) as [L|L].
  - apply (jensen x (fun t => Rabs (c - t)) (-1) m l NE Hm). intros a _. rewrite (Rabs_pos_eq (c - m)) by exact L.
    pose proof (Rle_abs (c - x a)). lra.
  - apply (jensen x (fun t => Rabs (c - t)) 1 m l NE Hm). intros a _. rewrite (Rabs_left1 (c - m)) by lra.
    pose proof (Rle_abs (- (c - x a))). rewrite Rabs_Ropp in H. lra.
Qed.

Lemma jensen_sq : forall {A} (x : A -> R) c m l, l <> [] -> m = rmean (map x l) ->
  (c - m) ^ 2 <= rmean (map (fun a => (c - x a) ^ 2) l).
Proof.
  intros A x c m l NE Hm. apply (jensen x (fun t => (c - t) ^ 2) (- 2 * (c - m)) m l NE Hm).
  intros a _. pose proof (pow2_ge_0 (x a - m)). nra.
Qed.

Lemma mean_zero : forall {A} (x : A -> R) l, l <> [] -> (forall a, In a l -> 0 <= x a) -> rmean (map x l) = 0 ->
  forall a, In a l -> x a = 0.
Proof.
  intros A x l NE H E a Ha. unfold rmean in E. rewrite map_length in E. pose proof (length_pos l NE) as P.
  assert (S : rsum (map x l) = 0).
  { apply (Rmult_eq_compat_r (INR (length l))) in E. unfold Rdiv in E. rewrite Rmult_assoc, Rinv_l in E by lra. lra. }
  assert (F : Forall (fun t => 0 <= t) (map x l)) by (apply Forall_forall; intros t Ht; apply in_map_iff in Ht as (b & <- & Hb); auto).
  pose proof (rsum_zero_all _ F S) as Z. rewrite Forall_forall in Z. apply Z. apply in_map. exact Ha.
Qed.

(** (sqrt x - sqrt c)^2 is convex in x. *)
Lemma jensen_hd : forall {A} (x : A -> R) c m l, l <> [] -> m = rmean (map x l) -> 0 <= c -> (forall a, In a l -> 0 <= x a) ->
  (sqrt m - sqrt c) ^ 2 <= rmean (map (fun a => (sqrt (x a) - sqrt c) ^ 2) l).
Proof.
  intros A x c m l NE Hm Hc Hx.
  assert (M0 : 0 <= m) by (subst m; apply rmean_nonneg; assumption).
  destruct (Req_dec m 0) as [Z|NZ].
  - apply (jensen x (fun t => (sqrt t - sqrt c) ^ 2) 0 m l NE Hm). intros a Ha.
    rewrite (mean_zero x l NE Hx (eq_trans (eq_sym Hm) Z) a Ha), Z. lra.
  - assert (MP : 0 < m) by lra. pose proof (sqrt_lt_R0 m MP) as SM. pose proof (sqrt_pos c) as SC.
    apply (jensen x (fun t => (sqrt t - sqrt c) ^ 2) (1 - sqrt c / sqrt m) m l NE Hm). intros a Ha.
    pose proof (sqrt_pos (x a)) as SX. pose proof (pow2_sqrt m M0) as E1. pose proof (pow2_sqrt (x a) (Hx a Ha)) as E2.
    set (u := sqrt m) in *. set (t := sqrt (x a)) in *. set (k := sqrt c) in *.
    rewrite <- E1, <- E2.
    assert (K : 0 <= k / u) by (apply Rmult_le_pos; [exact SC|left; apply Rinv_0_lt_compat; exact SM]).
    assert (KU : k = k / u * u) by (field; lra). rewrite KU at 1. rewrite KU at 3. pose proof (pow2_ge_0 (t - u)). nra.
Qed.

Lemma jensen_ln : forall {A} (x : A -> R) e m l, l <> [] -> m = rmean (map x l) -> 0 < e -> (forall a, In a l -> 0 <= x a) ->
  - ln (m + e) <= rmean (map (fun a => - ln (x a + e)) l).
Proof.
  intros A x e m l NE Hm He Hx. assert (M0 : 0 <= m) by (subst m; apply rmean_nonneg; assumption).
  apply (jensen x (fun t => - ln (t + e)) (- / (m + e)) m l NE Hm). intros a Ha. specialize (Hx a Ha).
  pose proof (ln_le_minus1 ((x a + e) / (m + e)) ltac:(apply Rdiv_lt_0_compat; lra)) as L.
  rewrite ln_div in L by lra. replace ((x a + e) / (m + e) - 1) with (/ (m + e) * (x a - m)) in L by (field; lra). lra.
Qed.

(** Quadratic over linear. *)
Lemma jensen_ps : forall {A} (x : A -> R) c e m l, l <> [] -> m = rmean (map x l) -> 0 < e -> 0 <= c -> (forall a, In a l -> 0 <= x a) ->
  (c - m) ^ 2 / (m + c + e) <= rmean (map (fun a => (c - x a) ^ 2 / (x a + c + e)) l).
Proof.
  intros A x c e m l NE Hm He Hc Hx. assert (M0 : 0 <= m) by (subst m; apply rmean_nonneg; assumption).
  apply (jensen x (fun t => (c - t) ^ 2 / (t + c + e)) (1 - ((2 * c + e) / (m + c + e)) ^ 2) m l NE Hm). intros a Ha. specialize (Hx a Ha).
  set (u := m + c + e). set (v := x a + c + e). assert (U : 0 < u) by (unfold u; lra). assert (V : 0 < v) by (unfold v; lra).
  set (k := 2 * c + e).
  replace ((c - m) ^ 2) with ((k - u) ^ 2) by (unfold k, u; ring).
  replace ((c - x a) ^ 2) with ((k - v) ^ 2) by (unfold k, v; ring).
  replace (x a - m) with (v - u) by (unfold u, v; ring).
  assert (E : (k - v) ^ 2 / v - ((k - u) ^ 2 / u + (1 - (k / u) ^ 2) * (v - u)) = (k / u) ^ 2 * ((v - u) ^ 2 / v)).
  { field. lra. }
  assert (0 <= (k / u) ^ 2 * ((v - u) ^ 2 / v)).
  { apply Rmult_le_pos; [apply pow2_ge_0|]. apply Rmult_le_pos; [apply pow2_ge_0|left; apply Rinv_0_lt_compat; exact V]. }
  lra.
Qed.

(** ** Losses that are sums over the classes *)

Lemma averaging_terms : forall n (T D : list R -> Prop) (h : R -> R) (d : list R -> list R -> out R) (f : nat -> list R -> list R -> R) k, 0 <= k ->
  (forall p q, T p -> D q -> exists v, d p q = Val v /\ h v = k * sumn n (fun i => f i p q)) ->
  (forall answers r, answers <> [] -> Forall D answers -> average_of n answers r -> D r) ->
  (forall p answers r i, T p -> answers <> [] -> Forall D answers -> average_of n answers r -> (i < n)%nat ->
     f i p r <= rmean (map (f i p) answers)) ->
  averaging_helps n T D h d.
Proof.
  intros n T D h d f k Hk HV HD HF p answers r Tp NE DA AV.
  destruct (HV p r Tp (HD answers r NE DA AV)) as (v & Ev & Hv).
  assert (W : exists vs, Forall2 (fun a w => d p a = Val w) answers vs /\
            map h vs = map (fun a => k * sumn n (fun i => f i p a)) answers).
  { clear NE AV Ev Hv. induction DA as [|a l Da DA IH].
    - exists []. split; [constructor|reflexivity].
    - destruct IH as (vs & F & E). destruct (HV p a Tp Da) as (w & Ew & Hw). exists (w :: vs).
      split; [constructor; assumption|]. cbn [map]. rewrite Hw, E. reflexivity. }
  destruct W as (vs & F & E). exists v, vs. split; [exact Ev|]. split; [exact F|].
  rewrite Hv, E, rmean_scal. apply Rmult_le_compat_l; [exact Hk|].
  rewrite <- sumn_rmean. apply sumn_le. intros i Hi. apply HF; assumption.
Qed.

Lemma average_len : forall n answers r, answers <> [] -> Forall (fun a : list R => length a = n) answers ->
  average_of n answers r -> length r = n.
Proof. intros n answers r _ _ [H _]. exact H. Qed.

Lemma average_nonneg : forall n answers r, answers <> [] ->
  Forall (fun a => length a = n /\ Forall (fun x => 0 <= x) a) answers -> average_of n answers r ->
  length r = n /\ Forall (fun x => 0 <= x) r.
Proof.
  intros n answers r NE H [L A]. split; [exact L|]. apply Forall_forall. intros t Ht.
  apply (In_nth _ _ 0) in Ht as (i & Hi & <-). rewrite A by (rewrite <- L; exact Hi).
  apply rmean_nonneg; [exact NE|]. intros a Ha. rewrite Forall_forall in H. apply nth_distribution_nonneg. apply (H a Ha).
Qed.

Lemma average_dist : forall n answers r, answers <> [] -> Forall (distribution_over n) answers -> average_of n answers r ->
  distribution_over n r.
Proof.
  intros n answers r NE H A.
  assert (H' : Forall (fun a => length a = n /\ Forall (fun x => 0 <= x) a) answers)
    by (eapply Forall_impl; [|exact H]; intros a (? & ? & ?); split; assumption).
  destruct (average_nonneg n answers r NE H' A) as [L P]. split; [exact L|]. split; [exact P|].
  rewrite <- sumn_nth, L. destruct A as [_ A].
  rewrite (sumn_ext n _ (fun c => rmean (map (fun a => nth c a 0) answers))) by exact A.
  rewrite (sumn_rmean n (fun c a => nth c a 0)).
  rewrite (map_ext_in _ (fun _ => 1)) by (intros a Ha; rewrite Forall_forall in H; apply sumn_dist; apply H; exact Ha).
  unfold rmean. rewrite map_length, rsum_map_const. field. pose proof (length_pos answers NE). lra.
Qed.

Lemma in_nth_nonneg : forall n answers a i, Forall (fun a => length a = n /\ Forall (fun x => 0 <= x) a) answers ->
  In a answers -> 0 <= nth i a 0.
Proof. intros n answers a i H Ha. rewrite Forall_forall in H. apply nth_distribution_nonneg. apply (H a Ha). Qed.

Lemma l1_averaging : forall n, (0 < n)%nat ->
  averaging_helps n (fun p => length p = n) (fun p => length p = n) (fun v => v) (fun p q => l1 (vec p) (vec q)).
Proof.
  intros n Hn. apply (averaging_terms n _ _ _ _ (fun i p q => Rabs (nth i p 0 - nth i q 0)) 1); [lra| |apply average_len|].
  - intros p q Hp Hq. rewrite l1_val by (try apply (nonempty_of n); congruence). eexists. split; [reflexivity|].
    unfold dsum. rewrite Hp. ring.
  - intros p answers r i Hp NE H [L A] Hi. apply jensen_abs; [exact NE|apply A; exact Hi].
Qed.

Lemma mae_averaging : forall n, (0 < n)%nat ->
  averaging_helps n (fun p => length p = n) (fun p => length p = n) (fun v => v) (fun p q => mean_absolute_error (vec p) (vec q)).
Proof.
  intros n Hn. pose proof (INR_pos n Hn).
  apply (averaging_terms n _ _ _ _ (fun i p q => Rabs (nth i p 0 - nth i q 0)) (/ INR n)); [left; apply Rinv_0_lt_compat; lra| |apply average_len|].
  - intros p q Hp Hq. rewrite mae_val by (try apply (nonempty_of n); congruence). eexists. split; [reflexivity|].
    unfold dsum. rewrite Hp, (sumn_ext n _ (fun i => Rabs (nth i p 0 - nth i q 0))) by (intros; apply Rabs_minus_sym). field. lra.
  - intros p answers r i Hp NE HA [L A] Hi. apply jensen_abs; [exact NE|apply A; exact Hi].
Qed.

Lemma mse_averaging : forall n, (0 < n)%nat ->
  averaging_helps n (fun p => length p = n) (fun p => length p = n) (fun v => v) (fun p q => mean_squared_error (vec p) (vec q)).
Proof.
  intros n Hn. pose proof (INR_pos n Hn).
  apply (averaging_terms n _ _ _ _ (fun i p q => (nth i p 0 - nth i q 0) ^ 2) (/ INR n)); [left; apply Rinv_0_lt_compat; lra| |apply average_len|].
  - intros p q Hp Hq. rewrite mse_val by (try apply (nonempty_of n); congruence). eexists. split; [reflexivity|].
    unfold dsum. rewrite Hp, (sumn_ext n _ (fun i => (nth i p 0 - nth i q 0) ^ 2)) by (intros; ring). field. lra.
  - intros p answers r i Hp NE HA [L A] Hi. apply jensen_sq; [exact NE|apply A; exact Hi].
Qed.

Lemma cum_average : forall n answers r k, average_of n answers r -> (k < n)%nat ->
  cum r k = rmean (map (fun a => cum a k) answers).
Proof.
  intros n answers r k [L A] Hk. unfold cum.
  rewrite (sumn_ext (S k) _ (fun c => rmean (map (fun a => nth c a 0) answers))) by (intros; apply A; lia).
  apply (sumn_rmean (S k) (fun c a => nth c a 0)).
Qed.

Lemma emd_averaging : forall n, (0 < n)%nat ->
  averaging_helps n (fun p => length p = n) (fun p => length p = n) (fun v => v) (fun p q => emd (vec p) (vec q)).
Proof.
  intros n Hn. apply (averaging_terms n _ _ _ _ (fun i p q => Rabs (cum p i - cum q i)) 1); [lra| |apply average_len|].
  - intros p q Hp Hq. rewrite emd_val by (try apply (nonempty_of n); congruence). eexists. split; [reflexivity|].
    rewrite Hp. ring.
  - intros p answers r i Hp NE H A Hi. apply (jensen_abs (fun a => cum a i)); [exact NE|apply (cum_average n); assumption].
Qed.

Lemma bray_curtis_averaging : forall n,
  averaging_helps n (distribution_over n) (distribution_over n) (fun v => v) (fun p q => bray_curtis (vec p) (vec q)).
Proof.
  intros n. apply (averaging_terms n _ _ _ _ (fun i p q => Rabs (nth i p 0 - nth i q 0)) (/ 2)); [lra| |apply average_dist|].
  - intros p q Dp Dq. rewrite (bray_curtis_val n) by assumption. eexists. split; [reflexivity|].
    unfold dsum. rewrite (proj1 Dp). field.
  - intros p answers r i Hp NE H [L A] Hi. apply jensen_abs; [exact NE|apply A; exact Hi].
Qed.

Lemma hd_averaging : forall n, (0 < n)%nat ->
  averaging_helps n (fun p => length p = n /\ Forall (fun x => 0 <= x) p) (fun p => length p = n /\ Forall (fun x => 0 <= x) p)
    (fun v => v ^ 2) (fun p q => hdist (vec p) (vec q)).
Proof.
  intros n Hn. apply (averaging_terms n _ _ _ _ (fun i p q => (sqrt (nth i q 0) - sqrt (nth i p 0)) ^ 2) 1); [lra| |apply average_nonneg|].
  - intros p q [Hp Pp] [Hq Pq]. rewrite hd_val by (assumption || (try apply (nonempty_of n); congruence)).
    eexists. split; [reflexivity|]. unfold dsum. rewrite Hp. rewrite pow2_sqrt by (apply sumn_nonneg; intros; apply pow2_ge_0). ring.
  - intros p answers r i [Hp Pp] NE H [L A] Hi. apply jensen_hd; [exact NE|apply A; exact Hi|apply nth_distribution_nonneg; exact Pp|].
    intros a Ha. exact (in_nth_nonneg n answers a i H Ha).
Qed.

Lemma ps_averaging : forall e n, 0 < e -> (0 < n)%nat ->
  averaging_helps n (fun p => length p = n /\ Forall (fun x => 0 <= x) p) (fun p => length p = n /\ Forall (fun x => 0 <= x) p)
    (fun v => v) (fun p q => probsymmetric e (vec p) (vec q)).
Proof.
  intros e n He Hn. apply (averaging_terms n _ _ _ _ (fun i p q => (nth i p 0 - nth i q 0) ^ 2 / (nth i q 0 + nth i p 0 + e)) 2); [lra| |apply average_nonneg|].
  - intros p q [Hp Pp] [Hq Pq]. rewrite ps_val by (assumption || (try apply (nonempty_of n); congruence)).
    eexists. split; [reflexivity|]. unfold dsum. rewrite Hp. ring.
  - intros p answers r i [Hp Pp] NE H [L A] Hi. apply jensen_ps; [exact NE|apply A; exact Hi|exact He|apply nth_distribution_nonneg; exact Pp|].
    intros a Ha. exact (in_nth_nonneg n answers a i H Ha).
Qed.

Lemma kld_averaging : forall e n, 0 < e -> (0 < n)%nat ->
  averaging_helps n (fun p => length p = n /\ Forall (fun x => 0 < x) p) (fun p => length p = n /\ Forall (fun x => 0 <= x) p)
    (fun v => v) (fun p q => kld e (vec p) (vec q)).
Proof.
  intros e n He Hn. pose proof ln2_pos as L2.
  apply (averaging_terms n _ _ _ _ (fun i p q => nth i p 0 * ln (nth i p 0) + nth i p 0 * - ln (nth i q 0 + e)) (/ ln 2)); [left; apply Rinv_0_lt_compat; exact L2| |apply average_nonneg|].
  - intros p q [Hp Pp] [Hq Pq]. rewrite kld_val by (assumption || (try apply (nonempty_of n); congruence)).
    eexists. split; [reflexivity|]. unfold dsum. rewrite Hp, <- sumn_scal. apply sumn_ext. intros i Hi.
    rewrite ln_div; [field; lra| |].
    + rewrite Forall_forall in Pp. apply Pp, nth_In. lia.
    + pose proof (nth_distribution_nonneg q i Pq). lra.
  - intros p answers r i [Hp Pp] NE H [L A] Hi.
    assert (P : 0 < nth i p 0) by (rewrite Forall_forall in Pp; apply Pp, nth_In; lia).
    pose proof (jensen_ln (fun a => nth i a 0) e (nth i r 0) answers NE (A i Hi) He (fun a Ha => in_nth_nonneg n answers a i H Ha)) as J.
    apply (Rmult_le_compat_l (nth i p 0)) in J; [|lra].
    rewrite <- rmean_scal in J.
    apply Rle_trans with (nth i p 0 * ln (nth i p 0) + rmean (map (fun a => nth i p 0 * - ln (nth i a 0 + e)) answers)); [lra|].
    right. unfold rmean. rewrite !map_length, rsum_map_plus, rsum_map_const. field. pose proof (length_pos answers NE). lra.
Qed.

(** ** l2: a norm *)

Lemma norm_sum : forall {A} n (g : nat -> A -> R) l,
  sqrt (sumn n (fun i => rsum (map (g i) l) ^ 2)) <= rsum (map (fun a => sqrt (sumn n (fun i => g i a ^ 2))) l).
Proof.
  intros A n g. induction l as [|a l IH]; cbn [map rsum].
  - rewrite sumn_0 by (intros; ring). rewrite sqrt_0. lra.
  - eapply Rle_trans; [apply (minkowski n (fun i => g i a) (fun i => rsum (map (g i) l)))|]. lra.
Qed.

Lemma l2_averaging : forall n, (0 < n)%nat ->
  averaging_helps n (fun p => length p = n) (fun p => length p = n) (fun v => v) (fun p q => l2 (vec p) (vec q)).
Proof.
  intros n Hn p answers r Hp NE HA AV. pose proof AV as [L A]. pose proof (length_pos answers NE) as P.
  rewrite l2_val by (try apply (nonempty_of n); congruence).
  exists (sqrt (dsum (fun a b => (a - b) ^ 2) p r)), (map (fun a => sqrt (sumn n (fun i => (nth i p 0 - nth i a 0) ^ 2))) answers).
  split; [reflexivity|]. split.
  - clear NE AV A P. induction HA as [|a l Ha HA IH]; cbn [map]; constructor; [|exact IH].
    rewrite l2_val by (try apply (nonempty_of n); congruence). unfold dsum. rewrite Hp. reflexivity.
  - rewrite map_id. unfold dsum. rewrite Hp.
    pose proof (norm_sum n (fun i a => nth i p 0 - nth i a 0) answers) as N.
    unfold rmean. rewrite map_length.
    apply (Rmult_le_reg_r (INR (length answers))); [exact P|]. unfold Rdiv. rewrite Rmult_assoc, Rinv_l, Rmult_1_r by lra.
    eapply Rle_trans; [|exact N]. right.
    rewrite <- (sqrt_pow2 (INR (length answers))) by lra. rewrite <- sqrt_mult_alt by (apply sumn_nonneg; intros; apply pow2_ge_0).
    f_equal. rewrite <- sumn_scal_r. apply sumn_ext. intros i Hi. cbv beta.
    rewrite rsum_map_minus, rsum_map_const, (A i Hi). unfold rmean. rewrite map_length. field. lra.
Qed.
