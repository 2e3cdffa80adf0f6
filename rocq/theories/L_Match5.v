(** * Proofs about PDFOrdinaly and ACOrdinal. *)

From Coq Require Import Reals List ZArith Lia Lra Bool Arith Permutation.
From Verif Require Import Num Spec L_Num M_Baselines L_Baselines M_Metrics L_Metrics M_Bags L_Bags M_Search
  M_Optim Spec_Optim L_Optim4 L_Optim5 M_Match Spec_Match L_Match L_Match2 L_Match3 L_Match4.
Import ListNotations.
Open Scope R_scope.

(** ** Scores *)

Lemma first_positive_some : forall r i, first_positive r = Some i ->
  (i < length r)%nat /\ 0 < nth i r 0 /\ forall j, (j < i)%nat -> nth j r 0 <= 0.
Proof.
  induction r as [|x r IH]; intros i H; [discriminate|]. simpl in H.
  destruct (Rlt_dec 0 x) as [P|P].
  - inversion H; subst i. simpl. split; [lia|]. split; [exact P|]. intros; lia.
  - destruct (first_positive r) as [j|] eqn:E; [|discriminate]. inversion H; subst i.
    destruct (IH j eq_refl) as (L & Q & F). simpl. split; [lia|]. split; [exact Q|].
    intros [|k] Hk; [lra|]. apply F. lia.
Qed.

Lemma first_positive_none : forall r, first_positive r = None -> forall j, nth j r 0 <= 0.
Proof.
  induction r as [|x r IH]; intros H j; [destruct j; simpl; lra|]. simpl in H.
  destruct (Rlt_dec 0 x) as [P|P]; [discriminate|].
  destruct (first_positive r); [discriminate|]. destruct j; simpl; [lra|]. now apply IH.
Qed.

Lemma entry_range : forall n r i, distribution_over n r -> 0 <= nth i r 0 <= 1.
Proof.
  intros n r i (L & P & S). split.
  - destruct (Nat.lt_ge_cases i (length r)) as [H|H]; [|rewrite nth_overflow by auto; lra].
    rewrite Forall_forall in P. apply P, nth_In. auto.
  - destruct (Nat.lt_ge_cases i (length r)) as [H|H]; [|rewrite nth_overflow by auto; lra].
    rewrite <- S, <- sumn_nth. apply (sumn_ge_term _ (fun i => nth i r 0)); auto.
    intros j Hj. rewrite Forall_forall in P. apply P, nth_In. auto.
Qed.

Lemma winner_range : forall n r, (2 <= n)%nat -> distribution_over n r -> 1 <= winner_score n r <= INR n.
Proof.
  intros n r Hn D. unfold winner_score.
  set (i0 := match first_positive r with Some i => i | None => O end).
  assert (H0 : (i0 < n)%nat).
  { unfold i0. destruct (first_positive r) as [i|] eqn:E; [|lia].
    apply first_positive_some in E. destruct D as [L _]. lia. }
  set (i1 := if Nat.eqb i0 (n - 1) then (n - 2)%nat else i0).
  assert (H1 : (i1 + 1 <= n - 1)%nat) by (unfold i1; destruct (Nat.eqb_spec i0 (n - 1)); lia).
  cbv zeta. pose proof (entry_range n r (i1 + 1) D) as E.
  assert (1 <= INR (i1 + 1)) by (change 1 with (INR 1); apply le_INR; lia).
  assert (INR (i1 + 1) <= INR n - 1).
  { replace n with (Datatypes.S (n - 1)) at 1 by lia. rewrite S_INR.
    apply le_INR in H1. lra. }
  lra.
Qed.

Lemma expected_range : forall n r, distribution_over n r -> 1 <= expected_position n r <= INR n.
Proof.
  intros n r (L & P & S). unfold expected_position.
  assert (Q : forall i, (i < n)%nat -> 0 <= nth i r 0).
  { intros i Hi. rewrite Forall_forall in P. apply P, nth_In. lia. }
  assert (E : sumn n (fun i => nth i r 0) = 1) by (rewrite <- L, sumn_nth; exact S).
  split.
  - rewrite <- E. apply sumn_le. intros i Hi. rewrite <- (Rmult_1_r (nth i r 0)) at 1.
    apply Rmult_le_compat_l; [auto|]. change 1 with (INR 1). apply le_INR. lia.
  - rewrite <- (Rmult_1_l (INR n)), <- E, <- sumn_scal_r. apply sumn_le. intros i Hi.
    apply Rmult_le_compat_l; [auto|]. apply le_INR. lia.
Qed.

Lemma score_range : forall m n r, (2 <= n)%nat -> distribution_over n r -> 1 <= pdfo_score m n r <= INR n.
Proof. intros [| |] n r Hn D; simpl; auto using winner_range, expected_range. Qed.

Lemma two_neighbours_sum : forall n k (f : nat -> R), (S k < n)%nat ->
  (forall i, i <> k -> i <> S k -> f i = 0) -> sumn n f = f k + f (S k).
Proof.
  intros n k f Hk H.
  rewrite (sumn_ext n f (fun i => (if Nat.eqb i k then f k else 0) + (if Nat.eqb i (S k) then f (S k) else 0))).
  - rewrite sumn_plus. f_equal.
    + rewrite (sumn_single n k); [rewrite Nat.eqb_refl; auto|lia|].
      intros j Hj Hne. apply Nat.eqb_neq in Hne. now rewrite Hne.
    + rewrite (sumn_single n (S k)); [rewrite Nat.eqb_refl; auto|lia|].
      intros j Hj Hne. apply Nat.eqb_neq in Hne. now rewrite Hne.
  - intros i Hi. destruct (Nat.eqb_spec i k) as [->|N1].
    + destruct (Nat.eqb_spec k (S k)); [lia|lra].
    + destruct (Nat.eqb_spec i (S k)) as [->|N2]; [lra|]. rewrite H by auto. lra.
Qed.

Lemma winner_expected : forall n k r, (2 <= n)%nat -> (k < n)%nat -> distribution_over n r ->
  on_two_neighbours k r -> winner_score n r = expected_position n r.
Proof.
  intros n k r Hn Hk D (Pk & Z). pose proof D as (L & P & S).
  assert (F : first_positive r = Some k).
  { destruct (first_positive r) as [i|] eqn:E.
    - apply first_positive_some in E. destruct E as (Li & Pi & Fi). f_equal.
      destruct (Nat.lt_trichotomy i k) as [H|[H|H]]; auto.
      + rewrite Z in Pi by lia. lra.
      + specialize (Fi k H). lra.
    - pose proof (first_positive_none r E k). lra. }
  unfold winner_score, expected_position. rewrite F. cbv zeta.
  rewrite <- (sumn_nth r), L in S.
  destruct (Nat.eqb_spec k (n - 1)) as [E|E].
  - assert (O : forall i, i <> k -> (i < n)%nat -> nth i r 0 = 0) by (intros; apply Z; lia).
    rewrite (sumn_single n k) in S by auto. rewrite (sumn_single n k).
    + rewrite S. replace (n - 2 + 1)%nat with k by lia. rewrite S. rewrite plus_INR. simpl. lra.
    + auto.
    + intros j Hj Hne. rewrite O by auto. ring.
  - rewrite (two_neighbours_sum n k) in S by (auto; lia).
    rewrite (two_neighbours_sum n k (fun i => nth i r 0 * INR (i + 1))).
    + replace (k + 1)%nat with (Datatypes.S k) by lia. replace (Datatypes.S k + 1)%nat with (Datatypes.S (Datatypes.S k)) by lia.
      rewrite !S_INR. replace (nth k r 0) with (1 - nth (Datatypes.S k) r 0) by lra. ring.
    + lia.
    + intros i H1 H2. rewrite Z by auto. ring.
Qed.

(** ** The histogram of scores *)

Lemma edges_eq : forall n_bins n, (0 < n_bins)%nat -> (2 <= n)%nat ->
  pdfo_edges (n_bins * (n - 1)) n = score_edges n_bins n.
Proof.
  intros n_bins n Hb Hn. unfold pdfo_edges, score_edges. set (bins := (n_bins * (n - 1))%nat).
  assert (H1 : 1 < INR n) by (change 1 with (INR 1); apply lt_INR; lia).
  assert (Hd : INR bins = INR n_bins * (INR n - 1)).
  { unfold bins. rewrite mult_INR, minus_INR by lia. reflexivity. }
  apply (nth_ext _ _ (Fin 0) (Fin 0)).
  - now rewrite map_length, uniform_edges_length, tabulate_length.
  - intros i Hi. rewrite map_length, uniform_edges_length in Hi.
    rewrite map_nth, uniform_edges_nth by (try lra; lia). rewrite tabulate_nth by auto.
    f_equal. f_equal. rewrite Hd. assert (0 < INR n_bins) by (apply lt_0_INR; auto). field. lra.
Qed.

Lemma pdfo_mass : forall n_bins n m r, (0 < n_bins)%nat -> (2 <= n)%nat -> distribution_over n r ->
  sumn (n_bins * (n - 1)) (fun k => pdfo_feature n_bins n m k r) = 1.
Proof.
  intros n_bins n m r Hb Hn D. set (bins := (n_bins * (n - 1))%nat).
  assert (H0 : (0 < bins)%nat) by (unfold bins; apply Nat.mul_pos_pos; lia).
  pose proof (score_range m n r Hn D) as [S1 S2].
  assert (H1 : 1 < INR n) by (change 1 with (INR 1); apply lt_INR; lia).
  assert (LE : length (pdfo_edges bins n) = S bins)
    by (unfold pdfo_edges; now rewrite map_length, uniform_edges_length).
  assert (NE : forall i, (i <= bins)%nat ->
    nth i (pdfo_edges bins n) PosInf = Fin (1 + INR i * ((INR n - 1) / INR bins))).
  { intros i Hi. unfold pdfo_edges.
    rewrite (nth_indep _ PosInf (Fin 0)) by (rewrite map_length, uniform_edges_length; lia).
    rewrite map_nth, uniform_edges_nth by (lra || lia). reflexivity. }
  unfold pdfo_feature. fold bins.
  replace bins with (S (bins - 1)) at 1 by lia.
  rewrite (sum_bins (pdfo_edges bins n) (pdfo_score m n r) (bins - 1)).
  - unfold before. rewrite LE. replace (S (S (bins - 1))) with (S bins) by lia.
    rewrite Nat.eqb_refl. replace (S (bins - 1)) with bins by lia. rewrite NE by lia.
    assert (A : at_most (Fin (1 + INR bins * ((INR n - 1) / INR bins))) (pdfo_score m n r) = true).
    { apply at_most_spec. simpl. assert (0 < INR bins) by (apply lt_0_INR; auto).
      replace (1 + INR bins * ((INR n - 1) / INR bins)) with (INR n) by (field; lra). exact S2. }
    rewrite A. reflexivity.
  - apply map_fin_ascending, uniform_edges_ascending; auto. lra.
  - lia.
  - rewrite NE by lia. destruct (below _ _) eqn:E; auto. apply below_spec in E. simpl in E.
    rewrite Rmult_0_l, Rplus_0_r in E. lra.
Qed.

Lemma pdfo_nil : forall n_bins n m emd v, pdfo_represent n_bins n m emd [] <> Val v.
Proof. intros n_bins n m emd v. unfold pdfo_represent. destruct (n_bins * (n - 1))%nat; discriminate. Qed.

Definition pdfo_phi (n_bins n : nat) (m : scoring) (emd : bool) (k : nat) (r : list R) : R :=
  if emd then sumn (S k) (fun i => pdfo_feature n_bins n m i r) else pdfo_feature n_bins n m k r.

Definition pdfo_dim (n_bins n : nat) (emd : bool) : nat :=
  if emd then (n_bins * (n - 1) - 1)%nat else (n_bins * (n - 1))%nat.

Lemma pdfo_averages' : forall n_bins n m emd, (0 < n_bins)%nat -> (2 <= n)%nat ->
  averages (pdfo_dim n_bins n emd) (pdfo_phi n_bins n m emd) (pdfo_represent n_bins n m emd).
Proof.
  intros n_bins n m emd Hb Hn. destruct (pdfo_averages n_bins n m Hb Hn) as [A B].
  destruct emd; [exact B|exact A].
Qed.

Lemma pdfo_phi_nonneg : forall n_bins n m emd k r, 0 <= pdfo_phi n_bins n m emd k r.
Proof.
  intros n_bins n m [|] k r; unfold pdfo_phi; [apply sumn_nonneg; intros|]; apply ind_nonneg.
Qed.

Lemma PDFO_fit_inv : forall N fuel n_bins d meth y preds m, PDFO_fit N fuel n_bins d meth y preds = Val m ->
  let n := length (np_unique y) in
  (0 < n_bins)%nat /\ (2 < n)%nat /\ meth <> OtherMethod /\
  fit_matching N fuel (pdfo_criterion d) (pdfo_dim n_bins n (is_emd d)) (pdfo_represent n_bins n meth (is_emd d))
    (np_unique y) (y_ext y (length preds)) preds = Val m.
Proof.
  intros N fuel n_bins d meth y preds m H n. unfold PDFO_fit in H. fold n in H.
  destruct (Nat.leb_spec n 2) as [|Hn]; [discriminate|].
  assert (Hm : meth <> OtherMethod) by (intros ->; discriminate).
  assert (HF : fit_matching N fuel (pdfo_criterion d) (pdfo_dim n_bins n (is_emd d))
    (pdfo_represent n_bins n meth (is_emd d)) (np_unique y) (y_ext y (length preds)) preds = Val m)
    by (destruct meth; [exact H|exact H|discriminate]).
  split; [|auto].
  assert (Hc : np_unique y <> []) by (intros E; unfold n in Hn; rewrite E in Hn; simpl in Hn; lia).
  destruct (fit_matching_some _ _ _ _ _ _ _ _ _ Hc HF) as (s & t & Ht).
  unfold pdfo_represent in Ht. destruct n_bins; [discriminate|lia].
Qed.

Lemma clip_distribution : forall p, distribution p -> clip_normalise p = p.
Proof.
  intros p (P & S). unfold clip_normalise.
  assert (E : map clip01 p = p).
  { rewrite <- (map_id p) at 2. apply map_ext_in. intros v Hv.
    apply (In_nth _ _ 0) in Hv. destruct Hv as (i & Hi & <-). apply clip01_id.
    apply (entry_range (length p)). repeat split; auto. }
  rewrite E, S. destruct (Rlt_dec 0 1); [|lra]. unfold vdiv.
  rewrite <- (map_id p) at 2. apply map_ext. intros; field.
Qed.

(** ** Rows of the training sample *)

Lemma samples_members : forall {A} classes ye (rows : list A) s x,
  In s (class_samples classes ye rows) -> In x s -> In x rows.
Proof.
  intros A classes ye rows s x Hs Hx. unfold class_samples in Hs. apply in_map_iff in Hs.
  destruct Hs as (c & <- & _). eapply select_in; eauto.
Qed.

Lemma PDFO_consistent : forall N fuel cvx n_bins d meth y preds m bags ks bag,
  exact_cvx cvx -> exact_qp (solve_qp N) -> d <> OtherOrdinalDistance ->
  PDFO_fit N fuel n_bins d meth y preds = Val m ->
  distributions (length (np_unique y)) preds ->
  identifiable (mt_bins m) (mt_classes m) (mt_T m) ->
  let samples := class_samples (np_unique y) (y_ext y (length preds)) preds in
  copies_of ks samples bag -> bag <> [] ->
  only_result N cvx (snd (matching_predict N cvx (pdfo_criterion d) 0
         (after_predictions N cvx (pdfo_criterion d) 0 m bags) bag)) (copies_prevalences ks samples bag).
Proof.
  intros N fuel cvx n_bins d meth y preds m bags ks bag HX HQ Hd HF HDp HI samples HK Hb.
  destruct (PDFO_fit_inv _ _ _ _ _ _ _ _ HF) as (Hnb & Hn & Hm & HM).
  set (n := length (np_unique y)) in *.
  pose proof (pdfo_averages' n_bins n meth (is_emd d) Hnb ltac:(lia)) as HA.
  destruct (fit_matching_inv _ _ _ _ _ _ _ _ _ _ HA (pdfo_nil n_bins n meth (is_emd d)) HM) as (-> & HN & L).
  fold samples in HN, HI |- *.
  rewrite fitted_classes in HI. change (mt_bins _) with (pdfo_dim n_bins n (is_emd d)) in HI.
  assert (HP : forall s x, In s samples -> In x s ->
    sumn (n_bins * (n - 1)) (fun k => pdfo_feature n_bins n meth k x) = 1).
  { intros s x Hs Hx. apply pdfo_mass; auto; [lia|].
    unfold distributions in HDp. rewrite Forall_forall in HDp. apply HDp.
    eapply samples_members; eauto. }
  assert (Hdist : exists dist, pdfo_criterion d = Named dist /\ dist <> OtherDistance /\
    (is_emd d = true -> dist = L1) /\ (is_emd d = false -> dist = HD \/ dist = L2)).
  { destruct d; [exists HD|exists L2|exists L1|congruence]; repeat split; try discriminate; auto. }
  destruct Hdist as (dist & Ed & Nd & H1 & H2). rewrite Ed in *.
  eapply (matching_recovers N fuel cvx dist 0); eauto using pdfo_phi_nonneg.
  - intros E. destruct (is_emd d); [rewrite H1 in E by auto; discriminate|].
    apply (equal_mass_intro _ _ _ _ _ _ _ 1); auto using pdfo_phi_nonneg.
  - intros E. destruct (is_emd d); [rewrite H1 in E by auto; discriminate|].
    apply (unit_row N fuel (Named dist) _ _ (pdfo_represent n_bins n meth false) _ (fun _ => 1)); auto.
    intros s x Hs Hx. transitivity (sumn (n_bins * (n - 1)) (fun k => pdfo_feature n_bins n meth k x)); [|eauto].
    unfold pdfo_dim, pdfo_phi. apply sumn_ext. intros. ring.
Qed.

Lemma PDFO_predict_matching : forall N cvx d m bag p, d <> OtherOrdinalDistance ->
  (forall q, snd (matching_predict N cvx (pdfo_criterion d) 0 m bag) = Val q -> distribution q) ->
  snd (PDFO_predict N cvx d m bag) = Val (Some p) <->
  snd (matching_predict N cvx (pdfo_criterion d) 0 m bag) = Val p.
Proof.
  intros N cvx d m bag p Hd HD. unfold PDFO_predict.
  destruct (mt_represent m bag) as [t| |] eqn:E.
  - destruct (matching_predict N cvx (pdfo_criterion d) 0 m bag) as [m' r] eqn:EM. cbn [snd] in *.
    assert (G : forall r', omap (fun p => Some (if is_emd d then clip_normalise p else p)) r' = Val (Some p) /\ r' = r
      <-> r' = Val p /\ r' = r).
    { intros r'. split; intros [A ->]; (split; [|reflexivity]).
      - destruct r as [q| |]; try discriminate. cbn in A. specialize (HD q eq_refl).
        inversion A. destruct (is_emd d); [now rewrite clip_distribution|reflexivity].
      - rewrite A in *. cbn. specialize (HD p eq_refl).
        destruct (is_emd d); [now rewrite clip_distribution|reflexivity]. }
    specialize (G r). destruct d; cbn [snd]; [tauto|tauto|tauto|congruence].
  - unfold matching_predict. rewrite E. cbn [snd]. split; discriminate.
  - unfold matching_predict. rewrite E. cbn [snd]. split; discriminate.
Qed.

(** ** Earth mover's distance *)

Lemma cum_tabulate : forall d (f : nat -> R) k, (k < d)%nat -> cum (tabulate d f) k = sumn (S k) f.
Proof.
  intros d f k Hk. unfold cum. apply sumn_ext. intros i Hi. rewrite tabulate_nth by lia. reflexivity.
Qed.

Lemma sumn_mixture : forall k n F p,
  sumn k (mixture_at n F p) = mixture_at n (fun r c => sumn k (fun i => F i c)) p 0.
Proof.
  intros k n F p. unfold mixture_at. rewrite sumn_swap. apply sumn_ext. intros c Hc.
  now rewrite sumn_scal_r.
Qed.

(** Cumulative columns and a cumulative test distribution: the L1 distance is the EMD. *)
Lemma emd_of_l1 : forall d e n F T t t' p, (0 < d)%nat -> length t = d ->
  (e = d \/ (S e = d /\ sumn d (mixture_at n F p) = rsum t)) ->
  (forall k c, (k < e)%nat -> (c < n)%nat -> T k c = sumn (S k) (fun i => F i c)) ->
  (forall k, (k < e)%nat -> nth k t' 0 = cum t k) ->
  emd (vec (mixture d n F p)) (vec t) = Val (l1_distance e n T t' p).
Proof.
  intros d e n F T t t' p Hd L HE HT Ht. unfold mixture.
  assert (LM : length (tabulate d (mixture_at n F p)) = d) by apply tabulate_length.
  rewrite emd_val.
  - f_equal. rewrite LM.
    assert (K : forall k, (k < e)%nat -> (k < d)%nat ->
      Rabs (cum (tabulate d (mixture_at n F p)) k - cum t k) = Rabs (mixture_at n T p k - nth k t' 0)).
    { intros k Hk Hk'. rewrite Ht by auto. rewrite cum_tabulate by auto. do 2 f_equal.
      rewrite sumn_mixture. unfold mixture_at. apply sumn_ext. intros c Hc. now rewrite HT. }
    unfold l1_distance. destruct HE as [->|[<- HM]].
    + apply sumn_ext. auto.
    + cbn [sumn]. rewrite cum_tabulate by lia. rewrite HM.
      assert (C : cum t e = rsum t) by (unfold cum; rewrite <- sumn_nth, L; reflexivity).
      rewrite C. rewrite Rminus_diag_eq, Rabs_R0, Rplus_0_r by reflexivity.
      apply sumn_ext. auto.
  - rewrite LM. auto.
  - intros E. rewrite E in LM. simpl in LM. lia.
Qed.

Lemma l1_cached_best' : forall {B} N cvx tol (m0 : matcher B) bags bag t p,
  exact_cvx cvx -> cache_ok (Named L1) m0 -> mt_represent m0 bag = Val t -> length t = mt_bins m0 ->
  snd (matching_predict N cvx (Named L1) tol (after_predictions N cvx (Named L1) tol m0 bags) bag) = Val p ->
  best_distribution (mt_classes m0) (l1_distance (mt_bins m0) (mt_classes m0) (mt_T m0) t) p.
Proof.
  intros B N cvx tol m0 bags bag t p HX C0 Er Lt H.
  destruct (predicted_state N cvx (Named L1) tol bags m0 C0) as [S C].
  set (m := after_predictions N cvx (Named L1) tol m0 bags) in *. clearbody m.
  pose proof S as (E1 & E2 & E3 & E4 & E5).
  unfold matching_predict in H. rewrite E5, Er in H.
  pose proof (l1_cached_best N cvx tol m t p HX C) as G. rewrite E1, E2, E3 in G. auto.
Qed.

(** The fraction is determined. *)
Lemma how_many_unique : forall {A} (P : A -> Prop) l k k', how_many P l k -> how_many P l k' -> k = k'.
Proof.
  intros A P l k k' H. revert k'. induction H; intros k' H'; inversion H'; subst; auto; try contradiction.
Qed.

Lemma fraction_unique : forall {A} (P : A -> Prop) l v v', fraction_in P l v -> fraction_in P l v' -> v = v'.
Proof.
  intros A P l v v' (k & H & ->) (k' & H' & ->). now rewrite (how_many_unique P l k k' H H').
Qed.

Lemma score_fraction : forall n_bins n m k s, (0 < n_bins)%nat -> (2 <= n)%nat ->
  fraction_in (in_bin (score_edges n_bins n) k) (map (pdfo_score m n) s)
    (mean_of (pdfo_feature n_bins n m k) s).
Proof.
  intros n_bins n m k s Hb Hn. unfold pdfo_feature. rewrite edges_eq by auto.
  exists (length (filter (in_binb (score_edges n_bins n) k) (map (pdfo_score m n) s))).
  split; [apply how_many_filter; intros; apply in_binb_spec|].
  rewrite count_mean. unfold mean_of. rewrite map_map, !map_length. reflexivity.
Qed.

Lemma PDFO_emd : forall N fuel cvx n_bins meth y preds m bags bag (F : nat -> nat -> R) t p,
  exact_cvx cvx -> PDFO_fit N fuel n_bins OEMD meth y preds = Val m ->
  let classes := np_unique y in
  let n := length classes in
  let bins := (n_bins * (n - 1))%nat in
  distributions n preds -> distributions n bag -> bag <> [] ->
  (forall k c, (k < bins)%nat -> (c < n)%nat ->
     fraction_in (in_bin (score_edges n_bins n) k)
       (map (pdfo_score meth n) (select (nth c classes 0%Z) (y_ext y (length preds)) preds)) (F k c)) ->
  length t = bins ->
  (forall k, (k < bins)%nat ->
     fraction_in (in_bin (score_edges n_bins n) k) (map (pdfo_score meth n) bag) (nth k t 0)) ->
  snd (PDFO_predict N cvx OEMD (after_predictions N cvx (Named L1) 0 m bags) bag) = Val (Some p) ->
  emd_best n (mixture bins n F) t p.
Proof.
  intros N fuel cvx n_bins meth y preds m bags bag F t p HX HF classes n bins HD HDb Hb HFr Lt Hft H.
  destruct (PDFO_fit_inv _ _ _ _ _ _ _ _ HF) as (Hnb & Hn & Hm & HM). fold classes n in Hn, HM.
  pose proof (pdfo_averages' n_bins n meth true Hnb ltac:(lia)) as HA. cbn [is_emd] in HM.
  destruct (fit_matching_inv _ _ _ _ _ _ _ _ _ _ HA (pdfo_nil n_bins n meth true) HM) as (Em & HN & L).
  destruct (fitted_facts _ _ _ _ _ _ _ _ _ _ HA (pdfo_nil n_bins n meth true) HM) as (F1 & F2 & F3 & F4 & F5).
  assert (C0 : cache_ok (Named L1) m) by (rewrite Em; apply new_matcher_cache).
  assert (Er : mt_represent m bag = Val (tabulate (pdfo_dim n_bins n true)
                 (fun r => mean_of (pdfo_phi n_bins n meth true r) bag))) by (rewrite F3; apply HA; auto).
  set (t' := tabulate _ _) in Er.
  assert (Lt' : length t' = mt_bins m) by (rewrite F1; apply tabulate_length).
  assert (G : forall q, snd (matching_predict N cvx (Named L1) 0 (after_predictions N cvx (Named L1) 0 m bags) bag)
     = Val q -> best_distribution n (l1_distance (mt_bins m) n (mt_T m) t') q).
  { intros q Hq. change n with (length classes). rewrite <- F2. eapply l1_cached_best'; eauto. }
  assert (HP : snd (matching_predict N cvx (Named L1) 0 (after_predictions N cvx (Named L1) 0 m bags) bag) = Val p).
  { apply (PDFO_predict_matching N cvx OEMD); [discriminate| |exact H].
    intros q Hq. apply G in Hq. apply Hq. }
  assert (Hbins : (0 < bins)%nat) by (unfold bins; apply Nat.mul_pos_pos; lia).
  exists (l1_distance (mt_bins m) n (mt_T m) t'). split; [|apply G, HP].
  assert (FE : forall k c, (k < bins)%nat -> (c < n)%nat ->
    F k c = mean_of (pdfo_feature n_bins n meth k) (select (nth c classes 0%Z) (y_ext y (length preds)) preds)).
  { intros k c Hk Hc. eapply fraction_unique; [apply HFr; auto|]. apply score_fraction; auto. lia. }
  assert (TE : forall k, (k < bins)%nat -> nth k t 0 = mean_of (pdfo_feature n_bins n meth k) bag).
  { intros k Hk. eapply fraction_unique; [apply Hft; auto|]. apply score_fraction; auto. lia. }
  assert (Md : forall s, distributions n s -> s <> [] ->
    sumn bins (fun k => mean_of (pdfo_feature n_bins n meth k) s) = 1).
  { intros s Hs Hne. rewrite <- (mean_of_sumn bins (fun k x => pdfo_feature n_bins n meth k x)).
    rewrite (mean_of_ext _ (fun _ => 1)); [now apply mean_of_const|].
    intros x Hx. apply pdfo_mass; auto; [lia|]. unfold distributions in Hs. rewrite Forall_forall in Hs. auto. }
  intros q Hq. rewrite F1. apply emd_of_l1; auto.
  - right. split; [unfold pdfo_dim; fold bins; lia|]. rewrite sumn_mixture.
    rewrite <- sumn_nth, Lt. rewrite (sumn_ext bins (fun i => nth i t 0) _ TE). rewrite Md by auto.
    unfold mixture_at. rewrite (sumn_ext n _ (fun c => nth c q 0)).
    + destruct Hq as (Lq & _ & Sq). now rewrite <- Lq, sumn_nth.
    + intros c Hc. rewrite (sumn_ext bins _ (fun k => mean_of (pdfo_feature n_bins n meth k)
        (select (nth c classes 0%Z) (y_ext y (length preds)) preds))) by auto.
      rewrite Md; [ring| |apply F4; auto].
      unfold distributions. apply Forall_forall. intros x Hx. unfold distributions in HD.
      rewrite Forall_forall in HD. apply HD. eapply select_in; eauto.
  - intros k c Hk Hc. rewrite F5 by auto. unfold pdfo_phi.
    rewrite (mean_of_sumn (S k) (fun i x => pdfo_feature n_bins n meth i x)).
    apply sumn_ext. intros i Hi. symmetry. apply FE; auto. unfold pdfo_dim in Hk. fold bins in Hk. lia.
  - intros k Hk. unfold t'. rewrite tabulate_nth by auto. unfold pdfo_phi, cum.
    rewrite (mean_of_sumn (S k) (fun i x => pdfo_feature n_bins n meth i x)).
    apply sumn_ext. intros i Hi. symmetry. apply TE. unfold pdfo_dim in Hk. fold bins in Hk. lia.
Qed.

(** ** ACOrdinal *)

Definition aco_phi (classes : list Z) (r : nat) (z : Z) : R :=
  sumn (S r) (fun i => ind (Z.eqb z (nth i classes 0%Z))).

Lemma fraction_mean : forall c s, fraction c s = mean_of (fun z => ind (Z.eqb z c)) s.
Proof.
  intros c s. unfold fraction, mean_of. f_equal. induction s as [|z s IH]; [reflexivity|].
  unfold zcount in *. cbn [count_occ map rsum]. destruct (Z.eq_dec z c) as [->|N].
  - rewrite S_INR, IH, Z.eqb_refl. simpl. ring.
  - apply Z.eqb_neq in N. rewrite N, IH. simpl. ring.
Qed.

Lemma y_ext_in : forall y k c, length (y_ext y k) = k -> In c y -> (0 < k)%nat -> In c (y_ext y k).
Proof.
  intros y k c L Hc Hk. unfold y_ext in *. destruct (Nat.eqb_spec (length y) k); auto.
  destruct (k / length y)%nat as [|j] eqn:E; [simpl in L; lia|]. simpl. apply in_or_app. auto.
Qed.

Lemma all_some_length : forall {A} (l : list (option A)) v, all_some l = Some v -> map Some v = l.
Proof.
  intros A. induction l as [|x l IH]; intros v H; simpl in H; [inversion H; reflexivity|].
  destruct x; [|discriminate]. destruct (all_some l) eqn:E; [|discriminate]. inversion H.
  simpl. f_equal. auto.
Qed.

Lemma ACOrdinal_fit_inv : forall N fuel y preds m, y <> [] ->
  (forall z, In z preds -> In z y) ->
  ACOrdinal_fit N fuel y preds = Val m ->
  let classes := np_unique y in
  let samples := class_samples classes (y_ext y (length preds)) preds in
  m = new_matcher N fuel (Named L1) (length classes) (aco_represent classes)
        (columns_of (length classes) (aco_phi classes) samples) /\
  Forall (fun s => s <> []) samples.
Proof.
  intros N fuel y preds m Hy HP H classes samples. unfold ACOrdinal_fit, AC_fit in H.
  set (ye := y_ext y (length preds)) in *.
  destruct (Nat.eqb_spec (length ye) (length preds)) as [L|]; [|discriminate].
  cbn [obind] in H. fold classes in H.
  assert (Hne : preds <> []).
  { intros ->. unfold confusion, classes in H. pose proof (np_unique_nonempty y Hy) as U.
    destruct (np_unique y) as [|c cs]; [congruence|]. cbn [map] in H.
    assert (Z : norm_row (map (fun d => INR (pair_count c d ye [])) (c :: cs)) = None).
    { unfold norm_row. assert (E : rsum (map (fun d => INR (pair_count c d ye [])) (c :: cs)) = 0).
      { assert (K : forall l, rsum (map (fun d => INR (pair_count c d ye [])) l) = 0).
        { induction l as [|a l IH]; [reflexivity|]. cbn [map rsum]. rewrite IH.
          rewrite pair_count_select. assert (select c ye ([] : list Z) = []) as ->
            by (destruct ye; reflexivity). simpl. lra. }
        apply K. }
      rewrite E. destruct (Req_EM_T 0 0); [reflexivity|contradiction]. }
    cbn [map] in Z. rewrite Z in H. discriminate. }
  assert (HE : forall c, In c classes -> In c ye).
  { intros c Hc. apply y_ext_in; auto.
    - apply (np_unique_in c y). exact Hc.
    - destruct preds; [congruence|simpl; lia]. }
  assert (ER : map norm_row (confusion classes ye preds) =
               map Some (map (fun c => map (fun d => rate c d ye preds) classes) classes)).
  { unfold confusion. rewrite !map_map. apply map_ext_in. intros c Hc.
    apply confusion_row; auto.
    - apply np_unique_NoDup.
    - intros z Hz. apply (np_unique_in z y). auto. }
  rewrite ER in H. rewrite all_some_map in H. inversion H as [Hm]. clear H.
  assert (HS : Forall (fun s => s <> []) samples).
  { apply Forall_forall. intros s Hs. unfold samples, class_samples in Hs. apply in_map_iff in Hs.
    destruct Hs as (c & <- & Hc). apply select_nonempty; auto. }
  split; [|exact HS]. f_equal. unfold columns_of, samples, class_samples. rewrite !map_map.
  apply map_ext_in. intros c Hc.
  replace (map (fun d => rate c d ye preds) classes) with
    (tabulate (length classes) (fun i => mean_of (fun z => ind (Z.eqb z (nth i classes 0%Z))) (select c ye preds))).
  - rewrite cumsum_tabulate. apply tabulate_ext. intros r Hr. unfold aco_phi. symmetry.
    apply (mean_of_sumn (S r) (fun i z => ind (Z.eqb z (nth i classes 0%Z)))).
  - apply (nth_ext _ _ 0 0); [now rewrite tabulate_length, map_length|].
    intros i Hi. rewrite tabulate_length in Hi. rewrite tabulate_nth by auto.
    rewrite (nth_indep _ 0 (rate c 0%Z ye preds)) by (now rewrite map_length).
    rewrite (map_nth (fun d => rate c d ye preds)). unfold rate. now rewrite fraction_mean.
Qed.

Lemma aco_nil : forall classes v, aco_represent classes [] <> Val v.
Proof. intros classes v. discriminate. Qed.

Lemma aco_phi_nonneg : forall classes r z, 0 <= aco_phi classes r z.
Proof. intros. apply sumn_nonneg. intros. apply ind_nonneg. Qed.

Lemma ACOrdinal_consistent : forall N fuel cvx y preds m bags ks bag,
  exact_cvx cvx -> exact_qp (solve_qp N) -> y <> [] -> (forall z, In z preds -> In z y) ->
  ACOrdinal_fit N fuel y preds = Val m ->
  identifiable (mt_bins m) (mt_classes m) (mt_T m) ->
  let samples := class_samples (np_unique y) (y_ext y (length preds)) preds in
  copies_of ks samples bag -> bag <> [] ->
  only_result N cvx (snd (ACOrdinal_predict N cvx (after_predictions N cvx (Named L1) 0 m bags) bag))
    (copies_prevalences ks samples bag).
Proof.
  intros N fuel cvx y preds m bags ks bag HX HQ Hy HP HF HI samples HK Hb.
  destruct (ACOrdinal_fit_inv _ _ _ _ _ Hy HP HF) as (-> & HN). fold samples in HN, HI |- *.
  rewrite fitted_classes in HI. change (mt_bins _) with (length (np_unique y)) in HI.
  unfold ACOrdinal_predict.
  eapply (matching_recovers N fuel cvx L1 0); eauto using aco_phi_nonneg; try discriminate.
  apply aco_averages.
Qed.

Lemma ACOrdinal_emd : forall N fuel cvx y preds m bags bag p,
  exact_cvx cvx -> y <> [] -> (forall z, In z preds -> In z y) ->
  ACOrdinal_fit N fuel y preds = Val m -> bag <> [] ->
  snd (ACOrdinal_predict N cvx (after_predictions N cvx (Named L1) 0 m bags) bag) = Val p ->
  let classes := np_unique y in
  let n := length classes in
  emd_best n
    (mixture n n (fun k c => rate (nth c classes 0%Z) (nth k classes 0%Z) (y_ext y (length preds)) preds))
    (map (fun c => fraction c bag) classes) p.
Proof.
  intros N fuel cvx y preds m bags bag p HX Hy HP HF Hb H classes n.
  destruct (ACOrdinal_fit_inv _ _ _ _ _ Hy HP HF) as (Em & HN). fold classes in Em, HN.
  set (samples := class_samples classes (y_ext y (length preds)) preds) in *.
  assert (C0 : cache_ok (Named L1) m) by (rewrite Em; apply new_matcher_cache).
  pose proof (aco_averages classes) as HA.
  assert (Er : mt_represent m bag = Val (tabulate n (fun r => mean_of (aco_phi classes r) bag)))
    by (rewrite Em; apply HA; auto).
  set (t' := tabulate _ _) in Er.
  assert (Ec : mt_classes m = n) by (rewrite Em, fitted_classes; apply class_samples_length).
  assert (Eb : mt_bins m = n) by (rewrite Em; reflexivity).
  assert (Lt' : length t' = mt_bins m) by (rewrite Eb; apply tabulate_length).
  pose proof (l1_cached_best' N cvx 0 m bags bag t' p HX C0 Er Lt' H) as B. rewrite Ec, Eb in B.
  exists (l1_distance n n (mt_T m) t'). split; [|exact B].
  assert (Hn : (0 < n)%nat).
  { unfold n, classes. pose proof (np_unique_nonempty y Hy). destruct (np_unique y); [congruence|simpl; lia]. }
  intros q Hq. apply emd_of_l1; auto.
  - now rewrite map_length.
  - intros k c Hk Hc. rewrite Em, fitted_T by (unfold samples; rewrite ?class_samples_length; auto).
    unfold samples. rewrite class_samples_nth by auto. unfold aco_phi.
    rewrite (mean_of_sumn (S k) (fun i z => ind (Z.eqb z (nth i classes 0%Z)))).
    apply sumn_ext. intros i Hi. unfold rate. now rewrite fraction_mean.
  - intros k Hk. unfold t'. rewrite tabulate_nth by auto. unfold aco_phi, cum.
    rewrite (mean_of_sumn (S k) (fun i z => ind (Z.eqb z (nth i classes 0%Z)))).
    apply sumn_ext. intros i Hi.
    rewrite (nth_indep _ 0 (fraction 0%Z bag)) by (rewrite map_length; fold n; lia).
    rewrite (map_nth (fun c => fraction c bag)). now rewrite fraction_mean.
Qed.
