(** * Proofs about fitted matchers: caches, minimality, consistency. *)

From Coq Require Import Reals List ZArith Lia Lra Bool Arith Permutation.
From Verif Require Import Num Spec L_Num M_Baselines L_Baselines M_Bags L_Bags M_Search L_Search3 M_Optim
  Spec_Optim L_Optim2 L_Optim3 L_Optim4 L_Optim5 M_Match Spec_Match L_Match.
Import ListNotations.
Open Scope R_scope.

(** ** Caches *)

Definition same_fit {B} (m m' : matcher B) : Prop :=
  mt_classes m' = mt_classes m /\ mt_bins m' = mt_bins m /\ mt_T m' = mt_T m /\ mt_l2 m' = mt_l2 m /\
  mt_represent m' = mt_represent m.

Definition stored_mixtures {B} (m : matcher B) : list (list R) :=
  map (fun i => mixture_of_pdfs (INR i / 100) (train_column m 1) (train_column m 0)) (seq 0 101).

(** The caches of [m] hold what predict computes from the fitted values. *)
Definition cache_ok {B} (crit : criterion) (m : matcher B) : Prop :=
  match mt_problem m with
  | None => True
  | Some P => cp_n P = mt_classes m /\ cp_d P = mt_bins m /\
      match crit with
      | Named HD => cp_objective P = hd_objective (mt_bins m) (mt_classes m) (mt_T m)
      | Named L1 => cp_objective P = l1_objective (mt_bins m) (mt_classes m) (mt_T m)
      | _ => True
      end
  end /\
  match mt_mixtures m with None => True | Some ms => ms = stored_mixtures m end.

Lemma new_matcher_cache : forall {B} N fuel crit d (rep : B -> out (list R)) cols,
  cache_ok crit (new_matcher N fuel crit d rep cols).
Proof. intros. split; exact I. Qed.

Lemma train_column_same : forall {B} (m m' : matcher B) c, same_fit m m' ->
  train_column m' c = train_column m c.
Proof. intros B m m' c (E1 & E2 & E3 & _). unfold train_column. now rewrite E2, E3. Qed.

Lemma stored_same : forall {B} (m m' : matcher B), same_fit m m' -> stored_mixtures m' = stored_mixtures m.
Proof.
  intros B m m' H. unfold stored_mixtures. now rewrite !(train_column_same m m') by auto.
Qed.

Lemma with_problem_same : forall {B} (m : matcher B) P, same_fit m (with_problem m P).
Proof. intros. repeat split. Qed.
Lemma with_mixtures_same : forall {B} (m : matcher B) P, same_fit m (with_mixtures m P).
Proof. intros. repeat split. Qed.
Lemma same_fit_refl : forall {B} (m : matcher B), same_fit m m.
Proof. intros. repeat split. Qed.
Lemma same_fit_trans : forall {B} (m1 m2 m3 : matcher B), same_fit m1 m2 -> same_fit m2 m3 ->
  same_fit m1 m3.
Proof.
  intros B m1 m2 m3 (a & b & c & d & e) (a' & b' & c' & d' & e').
  repeat split; congruence.
Qed.

Lemma run_problem_shape : forall cvx P t P' x, run_problem cvx P t = Val (P', x) ->
  cp_n P' = cp_n P /\ cp_d P' = cp_d P /\ cp_objective P' = cp_objective P.
Proof.
  intros cvx P t P' x H. unfold run_problem in H. destruct (valid_parameter _ _); [|discriminate].
  destruct (cvx _ _ _); [|discriminate]. inversion H; subst. auto.
Qed.

(** The problem that is solved, cached or not. *)
Lemma cached_hd : forall {B} cvx (m : matcher B) t P x, cache_ok (Named HD) m ->
  solve_hd cvx (mt_bins m) (mt_classes m) (mt_T m) t (mt_problem m) = Val (P, x) ->
  exists P0, run_problem cvx P0 t = Val (P, x) /\ cp_n P0 = mt_classes m /\ cp_d P0 = mt_bins m /\
    cp_objective P0 = hd_objective (mt_bins m) (mt_classes m) (mt_T m).
Proof.
  intros B cvx m t P x (HP & _) H. unfold solve_hd in H. destruct (mt_problem m) as [P0|].
  - exists P0. destruct HP as (? & ? & ?). auto.
  - destruct (Nat.eqb_spec (length t) (mt_bins m)) as [L|]; [|discriminate].
    eexists. split; [exact H|]. simpl. auto.
Qed.

Lemma cached_l1 : forall {B} cvx (m : matcher B) t P x, cache_ok (Named L1) m ->
  solve_l1 cvx (mt_bins m) (mt_classes m) (mt_T m) t (mt_problem m) = Val (P, x) ->
  exists P0, run_problem cvx P0 t = Val (P, x) /\ cp_n P0 = mt_classes m /\ cp_d P0 = mt_bins m /\
    cp_objective P0 = l1_objective (mt_bins m) (mt_classes m) (mt_T m).
Proof.
  intros B cvx m t P x (HP & _) H. unfold solve_l1 in H. destruct (mt_problem m) as [P0|].
  - exists P0. destruct HP as (? & ? & ?). auto.
  - destruct (Nat.eqb_spec (length t) (mt_bins m)) as [L|]; [|discriminate].
    eexists. split; [exact H|]. simpl. auto.
Qed.

Lemma estimate_state : forall {B} N cvx crit tol (m : matcher B) t, cache_ok crit m ->
  let m' := fst (estimate N cvx crit tol m t) in same_fit m m' /\ cache_ok crit m'.
Proof.
  intros B N cvx crit tol m t HC. unfold estimate.
  assert (K : same_fit m m /\ cache_ok crit m) by (split; [apply same_fit_refl|auto]).
  destruct crit as [[| | |]|f]; cbv zeta; auto.
  - destruct (solve_hd _ _ _ _ _ _) as [[P x]| |] eqn:E; cbn [fst]; auto.
    split; [apply with_problem_same|]. destruct (cached_hd _ _ _ _ _ HC E) as (P0 & R & H1 & H2 & H3).
    destruct (run_problem_shape _ _ _ _ _ R) as (F1 & F2 & F3).
    split; [simpl; repeat split; congruence|]. destruct HC as [_ HM]. exact HM.
  - destruct (solve_l1 _ _ _ _ _ _) as [[P x]| |] eqn:E; cbn [fst]; auto.
    split; [apply with_problem_same|]. destruct (cached_l1 _ _ _ _ _ HC E) as (P0 & R & H1 & H2 & H3).
    destruct (run_problem_shape _ _ _ _ _ R) as (F1 & F2 & F3).
    split; [simpl; repeat split; congruence|]. destruct HC as [_ HM]. exact HM.
  - destruct (Nat.ltb (mt_classes m) 2); [cbn [fst]; auto|].
    destruct (global_search f _ t tol (mt_mixtures m) true) as [[ms p]| |] eqn:E; cbn [fst]; auto.
    split; [apply with_mixtures_same|]. destruct HC as [HP HM]. split; [exact HP|].
    cbn [with_mixtures mt_mixtures].
    change (stored_mixtures (with_mixtures m ms)) with (stored_mixtures m).
    pose proof (global_search_stored f
      (fun p => mixture_of_pdfs p (train_column m 1) (train_column m 0)) t tol) as (G1 & G2 & _).
    destruct (mt_mixtures m) as [ms0|].
    + subst ms0. unfold stored_mixtures in E. rewrite G2 in E.
      destruct (global_search_from _ _ _); inversion E; subst. reflexivity.
    + rewrite G1 in E. destruct (global_search_from _ _ _); inversion E; subst. reflexivity.
Qed.

Lemma matching_predict_state : forall {B} N cvx crit tol (m : matcher B) bag, cache_ok crit m ->
  let m' := fst (matching_predict N cvx crit tol m bag) in same_fit m m' /\ cache_ok crit m'.
Proof.
  intros B N cvx crit tol m bag HC. unfold matching_predict.
  destruct (mt_represent m bag); cbv zeta;
    [apply estimate_state; auto|split; [apply same_fit_refl|auto]..].
Qed.

Lemma predicted_state : forall {B} N cvx crit tol bags (m : matcher B), cache_ok crit m ->
  same_fit m (after_predictions N cvx crit tol m bags) /\ cache_ok crit (after_predictions N cvx crit tol m bags).
Proof.
  intros B N cvx crit tol bags. unfold after_predictions. induction bags as [|b bags IH]; intros m HC.
  - split; [apply same_fit_refl|auto].
  - simpl. destruct (matching_predict_state N cvx crit tol m b HC) as [S C].
    destruct (IH _ C) as [S' C']. split; auto. eapply same_fit_trans; eauto.
Qed.

(** The answer does not depend on the caches, except for the warm start. *)
Lemma run_problem_answer : forall cvx P P' t, ignores_warm_start cvx ->
  cp_n P = cp_n P' -> cp_d P = cp_d P' -> cp_objective P = cp_objective P' ->
  omap snd (run_problem cvx P t) = omap snd (run_problem cvx P' t).
Proof.
  intros cvx P P' t HW E1 E2 E3. unfold run_problem. rewrite E1, E2, E3.
  destruct (valid_parameter _ _); [|reflexivity].
  rewrite (HW (cp_last P) (cp_last P')). destruct (cvx _ _ _); reflexivity.
Qed.

Lemma estimate_answer : forall {B} N cvx crit tol (m m' : matcher B) t,
  (crit = Named HD \/ crit = Named L1 -> ignores_warm_start cvx) ->
  same_fit m m' -> cache_ok crit m -> cache_ok crit m' ->
  snd (estimate N cvx crit tol m' t) = snd (estimate N cvx crit tol m t).
Proof.
  intros B N cvx crit tol m m' t HW S HC HC'. pose proof S as (E1 & E2 & E3 & E4 & E5).
  unfold estimate. destruct crit as [[| | |]|f]; cbv zeta.
  - assert (G : forall m : matcher B, snd match solve_hd cvx (mt_bins m) (mt_classes m) (mt_T m) t (mt_problem m) with
       | Val (P, x) => (with_problem m P, Val x) | Err e => (m, Err e) | NotANumber => (m, NotANumber) end
       = omap snd (solve_hd cvx (mt_bins m) (mt_classes m) (mt_T m) t (mt_problem m))).
    { intros m0. destruct (solve_hd _ _ _ _ _ _) as [[P x]| |]; reflexivity. }
    rewrite !G. clear G. destruct HC as [HP _]. destruct HC' as [HP' _].
    rewrite E1, E2, E3 in *. unfold solve_hd.
    assert (W : ignores_warm_start cvx) by auto.
    assert (Bad : forall P, cp_d P = mt_bins m -> length t <> mt_bins m ->
      omap snd (run_problem cvx P t) = Err ValueError).
    { intros P HD Hl. unfold run_problem, valid_parameter. rewrite HD.
      destruct (Nat.eqb_spec (length t) (mt_bins m)); [contradiction|reflexivity]. }
    destruct (mt_problem m') as [P'|], (mt_problem m) as [P|];
      try destruct HP as (H1 & H2 & H3); try destruct HP' as (H1' & H2' & H3');
      destruct (Nat.eqb_spec (length t) (mt_bins m)) as [L|L];
      try (apply run_problem_answer; auto; simpl; congruence);
      rewrite ?Bad by auto; reflexivity.
  - cbn [snd]. rewrite E1, E2, E3, E4. reflexivity.
  - assert (G : forall m : matcher B, snd match solve_l1 cvx (mt_bins m) (mt_classes m) (mt_T m) t (mt_problem m) with
       | Val (P, x) => (with_problem m P, Val x) | Err e => (m, Err e) | NotANumber => (m, NotANumber) end
       = omap snd (solve_l1 cvx (mt_bins m) (mt_classes m) (mt_T m) t (mt_problem m))).
    { intros m0. destruct (solve_l1 _ _ _ _ _ _) as [[P x]| |]; reflexivity. }
    rewrite !G. clear G. destruct HC as [HP _]. destruct HC' as [HP' _].
    rewrite E1, E2, E3 in *. unfold solve_l1.
    assert (W : ignores_warm_start cvx) by auto.
    assert (Bad : forall P, cp_d P = mt_bins m -> length t <> mt_bins m ->
      omap snd (run_problem cvx P t) = Err ValueError).
    { intros P HD Hl. unfold run_problem, valid_parameter. rewrite HD.
      destruct (Nat.eqb_spec (length t) (mt_bins m)); [contradiction|reflexivity]. }
    destruct (mt_problem m') as [P'|], (mt_problem m) as [P|];
      try destruct HP as (H1 & H2 & H3); try destruct HP' as (H1' & H2' & H3');
      destruct (Nat.eqb_spec (length t) (mt_bins m)) as [L|L];
      try (apply run_problem_answer; auto; simpl; congruence);
      rewrite ?Bad by auto; reflexivity.
  - reflexivity.
  - rewrite E1. destruct (Nat.ltb (mt_classes m) 2); [reflexivity|].
    rewrite !(train_column_same m m') by auto.
    destruct HC as [_ HM]. destruct HC' as [_ HM']. rewrite (stored_same m m') in HM' by auto.
    pose proof (global_search_stored f
      (fun p => mixture_of_pdfs p (train_column m 1) (train_column m 0)) t tol) as (G1 & G2 & _).
    assert (G : forall (m : matcher B) ms, ms = None \/ ms = Some (stored_mixtures m) -> True) by auto.
    clear G.
    assert (R : forall (m0 : matcher B) ms, ms = None \/ ms = Some (stored_mixtures m) ->
      snd match global_search f (fun p => mixture_of_pdfs p (train_column m 1) (train_column m 0))
                   t tol ms true with
           | Val (ms, p) => (with_mixtures m0 ms, Val [1 - p; p])
           | Err e => (m0, Err e)
           | NotANumber => (m0, NotANumber)
           end =
      omap (fun p => [1 - p; p]) (global_search_from
        (fun p => f (mixture_of_pdfs p (train_column m 1) (train_column m 0)) t) tol
        (fun i => f (mixture_of_pdfs (INR i / 100) (train_column m 1) (train_column m 0)) t))).
    { intros m0 ms [->| ->]; [rewrite G1|unfold stored_mixtures; rewrite G2];
        destruct (global_search_from _ _ _); reflexivity. }
    rewrite !R.
    + reflexivity.
    + destruct (mt_mixtures m); [right; congruence|auto].
    + destruct (mt_mixtures m'); [right; congruence|auto].
Qed.

(** ** Minimality *)

(** Equal masses: the Hellinger objective is the squared Hellinger distance up to constants. *)
Definition equal_mass {B} (m : matcher B) : Prop :=
  (forall r j, (r < mt_bins m)%nat -> (j < mt_classes m)%nat -> 0 <= mt_T m r j) /\
  exists c, forall j, (j < mt_classes m)%nat -> sumn (mt_bins m) (fun r => mt_T m r j) = c.

Lemma hd_cached_best : forall {B} N cvx tol (m : matcher B) t p, exact_cvx cvx -> cache_ok (Named HD) m ->
  equal_mass m -> length t = mt_bins m ->
  snd (estimate N cvx (Named HD) tol m t) = Val p ->
  best_distribution (mt_classes m) (squared_hellinger (mt_bins m) (mt_classes m) (mt_T m) t) p.
Proof.
  intros B N cvx tol m t p HX HC (HT & c & Hc) L H. unfold estimate in H.
  destruct (solve_hd _ _ _ _ _ _) as [[P x]| |] eqn:E; try discriminate. cbn [snd] in H.
  inversion H; subst x. destruct (cached_hd _ _ _ _ _ HC E) as (P0 & R & H1 & H2 & H3).
  assert (V : Forall (fun x => 0 <= x) t).
  { unfold run_problem in R. destruct (valid_parameter _ t) eqn:V; [|discriminate].
    eapply valid_parameter_nonneg; eauto. }
  apply run_problem_best in R; auto. rewrite H1, H3 in R. destruct R as [D O].
  split; auto. intros q Hq. specialize (O q Hq).
  rewrite !hellinger_identity by (auto; apply D || apply Hq).
  rewrite !(mixture_mass _ _ _ _ c) by auto. lra.
Qed.

Lemma l1_cached_best : forall {B} N cvx tol (m : matcher B) t p, exact_cvx cvx -> cache_ok (Named L1) m ->
  length t = mt_bins m ->
  snd (estimate N cvx (Named L1) tol m t) = Val p ->
  best_distribution (mt_classes m) (l1_distance (mt_bins m) (mt_classes m) (mt_T m) t) p.
Proof.
  intros B N cvx tol m t p HX HC L H. unfold estimate in H.
  destruct (solve_l1 _ _ _ _ _ _) as [[P x]| |] eqn:E; try discriminate. cbn [snd] in H.
  inversion H; subst x. destruct (cached_l1 _ _ _ _ _ HC E) as (P0 & R & H1 & H2 & H3).
  apply run_problem_best in R; auto. rewrite H1, H3 in R. destruct R as [D O].
  split; auto. intros q Hq. specialize (O q Hq). rewrite !l1_objective_val in O by auto. auto.
Qed.

Lemma best_zero_unique : forall d n (T : matrix) t p q (loss : list R -> R),
  identifiable d n T -> best_distribution n loss p -> distribution_over n q ->
  (forall x, 0 <= loss x) -> loss q = 0 ->
  (forall x, loss x = 0 -> forall r, (r < d)%nat -> mixture_at n T x r = nth r t 0) -> p = q.
Proof.
  intros d n T t p q loss HI (D & O) Dq H0 Hq Hz. apply HI; auto.
  assert (loss p = 0). { specialize (O q Dq). specialize (H0 p). lra. }
  intros r Hr. rewrite (Hz p H r Hr), (Hz q Hq r Hr). reflexivity.
Qed.

Lemma l1_nonneg : forall d n T t p, 0 <= l1_distance d n T t p.
Proof. intros. unfold l1_distance. apply sumn_nonneg. intros. apply Rabs_pos. Qed.

Lemma l1_zero : forall d n T t p, l1_distance d n T t p = 0 ->
  forall r, (r < d)%nat -> mixture_at n T p r = nth r t 0.
Proof.
  intros d n T t p H r Hr. unfold l1_distance in H.
  pose proof (sumn_zero_all d (fun r => Rabs (mixture_at n T p r - nth r t 0))
    (fun i _ => Rabs_pos _) H r Hr) as Z. cbv beta in Z.
  destruct (Req_dec (mixture_at n T p r - nth r t 0) 0) as [E|E]; [lra|].
  apply Rabs_no_R0 in E. contradiction.
Qed.

Lemma exact_fit_l1 : forall {B} N cvx tol (m : matcher B) t p q, exact_cvx cvx -> cache_ok (Named L1) m ->
  identifiable (mt_bins m) (mt_classes m) (mt_T m) ->
  length t = mt_bins m -> distribution_over (mt_classes m) q ->
  (forall r, (r < mt_bins m)%nat -> nth r t 0 = mixture_at (mt_classes m) (mt_T m) q r) ->
  snd (estimate N cvx (Named L1) tol m t) = Val p -> p = q.
Proof.
  intros B N cvx tol m t p q HX HC HI L Dq Ht H.
  pose proof (l1_cached_best N cvx tol m t p HX HC L H) as Hb.
  apply (best_zero_unique _ _ _ t _ _ _ HI Hb Dq).
  - intros. apply l1_nonneg.
  - unfold l1_distance. apply sumn_0. intros r Hr. rewrite Ht by auto.
    unfold Rminus. rewrite Rplus_opp_r. apply Rabs_R0.
  - intros x Hx. now apply l1_zero.
Qed.

Lemma exact_fit_hd : forall {B} N cvx tol (m : matcher B) t p q, exact_cvx cvx -> cache_ok (Named HD) m ->
  equal_mass m ->
  identifiable (mt_bins m) (mt_classes m) (mt_T m) ->
  length t = mt_bins m -> distribution_over (mt_classes m) q ->
  (forall r, (r < mt_bins m)%nat -> nth r t 0 = mixture_at (mt_classes m) (mt_T m) q r) ->
  snd (estimate N cvx (Named HD) tol m t) = Val p -> p = q.
Proof.
  intros B N cvx tol m t p q HX HC HE HI L Dq Ht H.
  destruct (hd_cached_best N cvx tol m t p HX HC HE L H) as [D O]. specialize (O q Dq).
  assert (Z : squared_hellinger (mt_bins m) (mt_classes m) (mt_T m) t q = 0).
  { unfold squared_hellinger. apply sumn_0. intros r Hr. rewrite Ht by auto. ring. }
  rewrite Z in O. pose proof (squared_hellinger_nonneg (mt_bins m) (mt_classes m) (mt_T m) t p).
  assert (Z' : squared_hellinger (mt_bins m) (mt_classes m) (mt_T m) t p = 0) by lra.
  apply HI; auto. intros r Hr. rewrite <- Ht by auto.
  unfold squared_hellinger in Z'.
  pose proof (sumn_zero_all (mt_bins m) (fun r => (sqrt (mixture_at (mt_classes m) (mt_T m) p r) -
    sqrt (nth r t 0)) ^ 2) (fun i _ => pow2_ge_0 _) Z' r Hr) as Y. cbv beta in Y.
  assert (sqrt (mixture_at (mt_classes m) (mt_T m) p r) = sqrt (nth r t 0)) by nra.
  apply sqrt_inj; auto.
  - apply mixture_nonneg; [intros; apply (proj1 HE); auto|apply D].
  - rewrite Ht by auto. apply mixture_nonneg; [intros; apply (proj1 HE); auto|apply Dq].
Qed.

(** ** Identifiable and independent columns *)

Lemma bounded_search : forall d (f : nat -> R),
  (exists r, (r < d)%nat /\ f r <> 0) \/ forall r, (r < d)%nat -> f r = 0.
Proof.
  intros d f. induction d as [|d [(r & Hr & E)|IH]].
  - right. intros; lia.
  - left. exists r. split; [lia|auto].
  - destruct (Req_EM_T (f d) 0) as [E|E].
    + right. intros r Hr. destruct (Nat.eq_dec r d); [subst; auto|apply IH; lia].
    + left. exists d. auto.
Qed.

Lemma identifiable_independent : forall d n (T : matrix) (w : nat -> R), identifiable d n T ->
  (forall j, (j < n)%nat -> sumn d (fun r => w r * T r j) = 1) -> independent_columns d n T.
Proof.
  intros d n T w HI Hw x (i & Hi & Hx).
  destruct (bounded_search d (fun r => sumn n (fun j => T r j * x j))) as [H|Hz]; [exact H|exfalso].
  assert (Hs : sumn n x = 0).
  { rewrite (sumn_ext n x (fun j => sumn d (fun r => w r * T r j) * x j))
      by (intros j Hj; rewrite Hw by auto; ring).
    rewrite (sumn_ext n _ (fun j => sumn d (fun r => w r * (T r j * x j)))).
    - rewrite sumn_swap. apply sumn_0. intros r Hr. rewrite sumn_scal.
      rewrite (Hz r Hr). ring.
    - intros j Hj. rewrite <- sumn_scal_r. apply sumn_ext. intros; ring. }
  set (S := 1 + sumn n (fun j => Rabs (x j))).
  assert (HS : 0 < S).
  { assert (0 <= sumn n (fun j => Rabs (x j))) by (apply sumn_nonneg; intros; apply Rabs_pos).
    unfold S. lra. }
  assert (Hn : 0 < INR n) by (apply INR_pos; lia).
  set (e := / (INR n * S)).
  assert (He : 0 < e) by (apply Rinv_0_lt_compat, Rmult_lt_0_compat; auto).
  assert (HeS : e * S = / INR n) by (unfold e; field; lra).
  assert (D1 : distribution_over n (tabulate n (fun _ => / INR n))).
  { split; [apply tabulate_length|]. split.
    - apply Forall_forall. intros v Hv. unfold tabulate in Hv. apply in_map_iff in Hv.
      destruct Hv as (j & <- & _). left. now apply Rinv_0_lt_compat.
    - rewrite rsum_tabulate, sumn_const. field. lra. }
  assert (D2 : distribution_over n (tabulate n (fun j => / INR n + e * x j))).
  { split; [apply tabulate_length|]. split.
    - apply Forall_forall. intros v Hv. unfold tabulate in Hv. apply in_map_iff in Hv.
      destruct Hv as (j & <- & Hj). apply in_seq in Hj.
      assert (Rabs (x j) <= S).
      { pose proof (sumn_ge_term n (fun j => Rabs (x j)) j) as G. cbv beta in G.
        assert (Rabs (x j) <= sumn n (fun j => Rabs (x j)))
          by (apply G; [intros; apply Rabs_pos|lia]). unfold S. lra. }
      assert (- x j <= Rabs (x j)) by (rewrite <- Rabs_Ropp; apply RRle_abs).
      assert (e * - x j <= e * S) by (apply Rmult_le_compat_l; lra). lra.
    - rewrite rsum_tabulate, sumn_plus, sumn_const, sumn_scal, Hs. field. lra. }
  assert (E : tabulate n (fun _ => / INR n) = tabulate n (fun j => / INR n + e * x j)).
  { apply HI; auto. intros r Hr. unfold mixture_at.
    rewrite (sumn_ext n (fun j => T r j * nth j (tabulate n (fun j => / INR n + e * x j)) 0)
      (fun j => T r j * nth j (tabulate n (fun _ => / INR n)) 0 + e * (T r j * x j))).
    - rewrite sumn_plus, sumn_scal, (Hz r Hr). ring.
    - intros j Hj. rewrite !tabulate_nth by auto. ring. }
  apply (f_equal (fun l => nth i l 0)) in E. rewrite !tabulate_nth in E by auto.
  assert (e * x i = 0) by lra. apply Rmult_integral in H. destruct H; lra.
Qed.

Lemma independent_identifiable : forall d n T, independent_columns d n T -> identifiable d n T.
Proof.
  intros d n T HI p q (Lp & _) (Lq & _) H. eapply independent_mixtures; eauto.
Qed.

(** ** Fit *)

Definition columns_of {A} (d : nat) (phi : nat -> A -> R) (samples : list (list A)) : list (list R) :=
  map (fun s => tabulate d (fun r => mean_of (phi r) s)) samples.

Lemma collect_forall : forall {A B} (f : A -> out B) l vs, collect (map f l) = Val vs ->
  forall a, In a l -> exists v, f a = Val v.
Proof.
  intros A B f l vs H a Ha. apply collect_inv in H.
  assert (I : In (f a) (map Val vs)) by (rewrite <- H; now apply in_map).
  apply in_map_iff in I. destruct I as (v & E & _). eauto.
Qed.

Lemma fit_matching_inv : forall {A} N fuel crit d phi (rep : list A -> out (list R)) classes ye rows m,
  averages d phi rep -> (forall v, rep [] <> Val v) ->
  fit_matching N fuel crit d rep classes ye rows = Val m ->
  m = new_matcher N fuel crit d rep (columns_of d phi (class_samples classes ye rows)) /\
  Forall (fun s => s <> []) (class_samples classes ye rows) /\ length ye = length rows.
Proof.
  intros A N fuel crit d phi rep classes ye rows m HA H0 H. unfold fit_matching in H.
  destruct (Nat.eqb_spec (length ye) (length rows)) as [L|]; [|discriminate].
  destruct (collect _) as [cols| |] eqn:E; try discriminate. inversion H; subst m. clear H.
  assert (HN : Forall (fun s => s <> []) (class_samples classes ye rows)).
  { apply Forall_forall. intros s Hs. unfold class_samples in Hs. apply in_map_iff in Hs.
    destruct Hs as (c & <- & Hc). intros Z.
    destruct (collect_forall _ _ _ E c Hc) as (v & Ev). rewrite Z in Ev. eapply H0; eauto. }
  split; [|auto]. f_equal.
  rewrite <- (map_map (fun c => select c ye rows) rep) in E.
  fold (class_samples classes ye rows) in E.
  rewrite (collect_val rep (fun s => tabulate d (fun r => mean_of (phi r) s))) in E.
  - inversion E. reflexivity.
  - intros s Hs. apply HA. rewrite Forall_forall in HN. auto.
Qed.

Lemma columns_entry : forall {A} d phi (samples : list (list A)) r c, (r < d)%nat ->
  (c < length samples)%nat ->
  matrix_of_columns (columns_of d phi samples) r c = mean_of (phi r) (nth c samples []).
Proof.
  intros A d phi samples r c Hr Hc. unfold matrix_of_columns, columns_of.
  rewrite (nth_indep _ [] (tabulate d (fun r => mean_of (phi r) []))) by (now rewrite map_length).
  rewrite (map_nth (fun s => tabulate d (fun r => mean_of (phi r) s))). now rewrite tabulate_nth.
Qed.

(** ** Consistency *)

Section Consistency.
Context {A : Type} (N : numerics) (fuel : nat) (crit : criterion) (d : nat) (phi : nat -> A -> R)
  (rep : list A -> out (list R)) (samples : list (list A)).
Hypothesis HA : averages d phi rep.
Hypothesis HS : Forall (fun s => s <> []) samples.
Let m := new_matcher N fuel crit d rep (columns_of d phi samples).

Lemma fitted_classes : mt_classes m = length samples.
Proof. unfold m, columns_of. simpl. apply map_length. Qed.

Lemma fitted_T : forall r c, (r < d)%nat -> (c < length samples)%nat ->
  mt_T m r c = mean_of (phi r) (nth c samples []).
Proof. intros. unfold m. simpl. now apply columns_entry. Qed.

Lemma copies_represented : forall ks bag, copies_of ks samples bag -> bag <> [] ->
  exists t, rep bag = Val t /\ length t = d /\
    forall r, (r < d)%nat -> nth r t 0 =
      mixture_at (mt_classes m) (mt_T m) (copies_prevalences ks samples bag) r.
Proof.
  intros ks bag HK Hb. exists (tabulate d (fun r => mean_of (phi r) bag)).
  split; [apply HA; auto|]. split; [apply tabulate_length|].
  intros r Hr. rewrite tabulate_nth by auto. rewrite (copies_mean (phi r) ks samples bag) by auto.
  unfold mixture_at. rewrite fitted_classes. apply sumn_ext. intros c Hc.
  rewrite fitted_T by auto. ring.
Qed.

Lemma mass_of_features : forall k (c : R), (k <= d)%nat -> 
  (forall s x, In s samples -> In x s -> sumn k (fun r => phi r x) = c) -> forall j, (j < length samples)%nat -> sumn k (fun r => mt_T m r j) = c.
Proof.
  intros k c Hk H j Hj.
  rewrite (sumn_ext k _ (fun r => mean_of (phi r) (nth j samples []))) by (intros; apply fitted_T; lia).
  assert (I : In (nth j samples []) samples) by (now apply nth_In).
  rewrite <- mean_of_sumn. rewrite (mean_of_ext _ (fun _ => c)) by (intros; eapply H; eauto).
  apply mean_of_const. rewrite Forall_forall in HS. now apply HS.
Qed.

End Consistency.

(** ** Independence of the history *)

Lemma matching_predict_answer : forall {B} N cvx crit tol (m m' : matcher B) bag,
  (crit = Named HD \/ crit = Named L1 -> ignores_warm_start cvx) ->
  same_fit m m' -> cache_ok crit m -> cache_ok crit m' ->
  snd (matching_predict N cvx crit tol m' bag) = snd (matching_predict N cvx crit tol m bag).
Proof.
  intros B N cvx crit tol m m' bag HW S HC HC'. unfold matching_predict.
  pose proof S as (_ & _ & _ & _ & ->). destruct (mt_represent m bag); [|reflexivity..].
  apply estimate_answer; auto.
Qed.

Lemma matching_consistent : forall {A} N fuel cvx dist tol d phi (rep : list A -> out (list R)) samples
    bags ks bag p,
  let m0 := new_matcher N fuel (Named dist) d rep (columns_of d phi samples) in
  averages d phi rep -> Forall (fun s => s <> []) samples ->
  exact_cvx cvx -> exact_qp (solve_qp N) -> dist <> OtherDistance ->
  (dist = HD -> equal_mass m0) ->
  (dist <> L2 -> identifiable d (length samples) (mt_T m0)) ->
  (dist = L2 -> independent_columns d (length samples) (mt_T m0)) ->
  copies_of ks samples bag -> bag <> [] ->
  snd (matching_predict N cvx (Named dist) tol
         (after_predictions N cvx (Named dist) tol m0 bags) bag) = Val p ->
  p = copies_prevalences ks samples bag.
Proof.
  intros A N fuel cvx dist tol d phi rep samples bags ks bag p m0 HA HS HX HQ Hd HE HI HL HK Hb H.
  assert (C0 : cache_ok (Named dist) m0) by apply new_matcher_cache.
  destruct (predicted_state N cvx (Named dist) tol bags m0 C0) as [S C].
  set (m := after_predictions N cvx (Named dist) tol m0 bags) in *. clearbody m.
  pose proof S as (E1 & E2 & E3 & E4 & E5).
  assert (Em : mt_classes m0 = length samples) by apply fitted_classes.
  destruct (copies_represented N fuel (Named dist) d phi rep samples HA HS ks bag HK Hb)
    as (t & Et & Lt & Ht). fold m0 in Ht.
  pose proof (copies_prevalences_distribution ks samples bag HK Hb) as D.
  set (q := copies_prevalences ks samples bag) in *.
  unfold matching_predict in H. rewrite E5 in H.
  change (mt_represent m0 bag) with (rep bag) in H. rewrite Et in H.
  assert (Eb : mt_bins m0 = d) by reflexivity.
  assert (HE' : dist = HD -> equal_mass m).
  { intros Z. specialize (HE Z). unfold equal_mass in *. rewrite E1, E2, E3. exact HE. }
  destruct dist; [| | |congruence].
  - apply (exact_fit_hd N cvx tol m t p q HX C); auto; rewrite ?E1, ?E2, ?E3, ?Em, ?Eb in *; auto.
    apply HI. discriminate.
  - assert (H' : match mt_l2 m0 with
          | Some (G, C, b) => solve_l2 N d (length samples) (mt_T m0) t G C b
          | None => Err ValueError
          end = Val p).
    { unfold estimate in H. cbn [snd] in H. rewrite E1, E2, E3, E4, Em, Eb in H. exact H. }
    assert (EL : mt_l2 m0 = compute_l2_param_train N fuel d (length samples) (mt_T m0)).
    { unfold m0, new_matcher. cbn [mt_l2 mt_T]. unfold columns_of. now rewrite map_length. }
    destruct (mt_l2 m0) as [[[G Cm] b]|]; [|discriminate].
    rewrite Em in Ht. eapply (l2_exact N fuel d (length samples) (mt_T m0) t); eauto.
  - apply (exact_fit_l1 N cvx tol m t p q HX C); auto; rewrite ?E1, ?E2, ?E3, ?Em, ?Eb in *; auto.
    apply HI. discriminate.
Qed.

(** ** The prediction exists when the solvers answer *)

Lemma run_problem_answers : forall cvx P t x, answering_cvx cvx ->
  length t = cp_d P -> Forall (fun v => 0 <= v) t ->
  best_distribution (cp_n P) (cp_objective P t) x ->
  exists P' y, run_problem cvx P t = Val (P', y).
Proof.
  intros cvx P t x HC L Ht B. unfold run_problem.
  assert (V : valid_parameter (cp_d P) t = true).
  { unfold valid_parameter. rewrite L, Nat.eqb_refl. apply forallb_forall. intros v Hv.
    rewrite Forall_forall in Ht. specialize (Ht v Hv). destruct (Rle_dec 0 v); auto; contradiction. }
  rewrite V. destruct (HC (cp_last P) _ _ _ B) as (y & ->). eauto.
Qed.

Lemma l1_answers : forall {B} N cvx tol (m : matcher B) t q, answering_cvx cvx -> cache_ok (Named L1) m ->
  length t = mt_bins m -> Forall (fun v => 0 <= v) t -> distribution_over (mt_classes m) q ->
  (forall r, (r < mt_bins m)%nat -> nth r t 0 = mixture_at (mt_classes m) (mt_T m) q r) ->
  exists p, snd (estimate N cvx (Named L1) tol m t) = Val p.
Proof.
  intros B N cvx tol m t q HX (HC & _) L Ht Dq Hq.
  assert (Bq : best_distribution (mt_classes m) (l1_objective (mt_bins m) (mt_classes m) (mt_T m) t) q).
  { apply l1_best_of_fit; auto. intros; symmetry; auto. }
  unfold estimate, solve_l1. destruct (mt_problem m) as [P|].
  - destruct HC as (H1 & H2 & H3).
    destruct (run_problem_answers cvx P t q) as (P' & y & ->); rewrite ?H1, ?H2, ?H3; auto.
    cbn [snd]. eauto.
  - rewrite L, Nat.eqb_refl.
    destruct (run_problem_answers cvx {| cp_n := mt_classes m; cp_d := mt_bins m;
       cp_objective := l1_objective (mt_bins m) (mt_classes m) (mt_T m); cp_last := None |} t q)
      as (P' & y & ->); auto. cbn [snd]. eauto.
Qed.

Lemma hd_answers : forall {B} N cvx tol (m : matcher B) t q, answering_cvx cvx -> cache_ok (Named HD) m ->
  equal_mass m ->
  length t = mt_bins m -> Forall (fun v => 0 <= v) t -> distribution_over (mt_classes m) q ->
  (forall r, (r < mt_bins m)%nat -> nth r t 0 = mixture_at (mt_classes m) (mt_T m) q r) ->
  exists p, snd (estimate N cvx (Named HD) tol m t) = Val p.
Proof.
  intros B N cvx tol m t q HX (HC & _) (HT & c & Hc) L Ht Dq Hq.
  assert (Bq : best_distribution (mt_classes m) (hd_objective (mt_bins m) (mt_classes m) (mt_T m) t) q).
  { apply (hd_best_of_fit _ _ _ _ _ c); auto. intros; symmetry; auto. }
  unfold estimate, solve_hd. destruct (mt_problem m) as [P|].
  - destruct HC as (H1 & H2 & H3).
    destruct (run_problem_answers cvx P t q) as (P' & y & ->); rewrite ?H1, ?H2, ?H3; auto.
    cbn [snd]. eauto.
  - rewrite L, Nat.eqb_refl.
    destruct (run_problem_answers cvx {| cp_n := mt_classes m; cp_d := mt_bins m;
       cp_objective := hd_objective (mt_bins m) (mt_classes m) (mt_T m); cp_last := None |} t q)
      as (P' & y & ->); auto. cbn [snd]. eauto.
Qed.

Lemma l2_answers : forall N fuel d n T t q, answering_qp (solve_qp N) -> independent_columns d n T ->
  length t = d -> distribution_over n q ->
  (forall r, (r < d)%nat -> nth r t 0 = mixture_at n T q r) ->
  exists G C b p, compute_l2_param_train N fuel d n T = Some (G, C, b) /\
    solve_l2 N d n T t G C b = Val p.
Proof.
  intros N fuel d n T t q HQ HI L Dq Hq. unfold compute_l2_param_train.
  rewrite ensure_pd_same by (auto using gram2_sym, gram2_pd).
  exists (gram2 d T), l2_C, l2_b. unfold solve_l2. rewrite L, Nat.eqb_refl.
  destruct (HQ n (S n) (gram2 d T) (fun i => 2 * sumn d (fun r => T r i * nth r t 0)) l2_C l2_b 1%nat)
    as (x & ->); [|eauto].
  exists q. split; [now apply l2_constraints|]. intros p Hp. rewrite !l2_objective.
  assert (Z : squared_l2 d n T t q = 0).
  { unfold squared_l2. apply sumn_0. intros r Hr. rewrite Hq by auto. ring. }
  pose proof (squared_l2_nonneg d n T t p). lra.
Qed.

Lemma matching_recovers : forall {A} N fuel cvx dist tol d phi (rep : list A -> out (list R)) samples
    bags ks bag,
  let m0 := new_matcher N fuel (Named dist) d rep (columns_of d phi samples) in
  averages d phi rep -> Forall (fun s => s <> []) samples -> (forall r x, 0 <= phi r x) ->
  exact_cvx cvx -> exact_qp (solve_qp N) -> dist <> OtherDistance ->
  (dist = HD -> equal_mass m0) ->
  (dist <> L2 -> identifiable d (length samples) (mt_T m0)) ->
  (dist = L2 -> independent_columns d (length samples) (mt_T m0)) ->
  copies_of ks samples bag -> bag <> [] ->
  only_result N cvx (snd (matching_predict N cvx (Named dist) tol
         (after_predictions N cvx (Named dist) tol m0 bags) bag)) (copies_prevalences ks samples bag).
Proof.
  intros A N fuel cvx dist tol d phi rep samples bags ks bag m0 HA HS HP HX HQ Hd HE HI HL HK Hb.
  assert (P1 : forall q, snd (matching_predict N cvx (Named dist) tol
         (after_predictions N cvx (Named dist) tol m0 bags) bag) = Val q ->
         q = copies_prevalences ks samples bag).
  { intros q Hq. eapply matching_consistent; eauto. }
  split; [exact P1|]. intros AC AQ.
  enough (exists p, snd (matching_predict N cvx (Named dist) tol
         (after_predictions N cvx (Named dist) tol m0 bags) bag) = Val p) as (p & Hp).
  { rewrite Hp. f_equal. now apply P1. }
  assert (C0 : cache_ok (Named dist) m0) by apply new_matcher_cache.
  destruct (predicted_state N cvx (Named dist) tol bags m0 C0) as [S C].
  set (m := after_predictions N cvx (Named dist) tol m0 bags) in *. clearbody m.
  pose proof S as (E1 & E2 & E3 & E4 & E5).
  assert (Em : mt_classes m0 = length samples) by apply fitted_classes.
  destruct (copies_represented N fuel (Named dist) d phi rep samples HA HS ks bag HK Hb)
    as (t & Et & Lt & Ht). fold m0 in Ht.
  pose proof (copies_prevalences_distribution ks samples bag HK Hb) as D.
  set (q := copies_prevalences ks samples bag) in *.
  unfold matching_predict. rewrite E5. change (mt_represent m0 bag) with (rep bag). rewrite Et.
  assert (Eb : mt_bins m0 = d) by reflexivity.
  assert (HE' : dist = HD -> equal_mass m).
  { intros Z. specialize (HE Z). unfold equal_mass in *. rewrite E1, E2, E3. exact HE. }
  assert (Nt : Forall (fun v => 0 <= v) t).
  { apply Forall_forall. intros v Hv. apply (In_nth _ _ 0) in Hv. destruct Hv as (r & Hr & <-).
    rewrite (HA bag Hb) in Et. inversion Et. rewrite tabulate_nth by lia. now apply mean_of_nonneg. }
  destruct dist; [| | |congruence].
  - apply (hd_answers N cvx tol m t q AC C); auto; rewrite ?E1, ?E2, ?E3, ?Em, ?Eb in *; auto.
  - unfold estimate. cbn [snd]. rewrite E1, E2, E3, E4, Em, Eb.
    assert (EL : mt_l2 m0 = compute_l2_param_train N fuel d (length samples) (mt_T m0)).
    { unfold m0, new_matcher. cbn [mt_l2 mt_T]. unfold columns_of. now rewrite map_length. }
    rewrite Em in Ht.
    destruct (l2_answers N fuel d (length samples) (mt_T m0) t q AQ (HL eq_refl) Lt D Ht)
      as (G & Cm & b & p & EP & Es).
    rewrite EL, EP. eauto.
  - apply (l1_answers N cvx tol m t q AC C); auto; rewrite ?E1, ?E2, ?E3, ?Em, ?Eb in *; auto.
Qed.
