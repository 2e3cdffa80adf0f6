(** * The statements about the fitted histograms, the optimality and the cut points. *)

From Coq Require Import Reals List ZArith Lia Lra Bool Arith Permutation.
From Verif Require Import Num Spec L_Num M_Baselines L_Baselines M_Metrics L_Metrics M_Bags L_Bags M_Search
  M_Optim Spec_Optim L_Optim L_Optim2 L_Optim3 L_Optim4 L_Optim5 M_Match Spec_Match L_Match L_Match2 L_Match3 L_Match4 L_Match5
  L_Match6 L_Match7.
Import ListNotations.
Open Scope R_scope.

(** ** Histograms *)

Lemma bag_representation : forall {A} N cvx crit tol (m : matcher (list A)) bags bag d phi rep,
  cache_ok crit m -> mt_represent m = rep -> averages d phi rep -> bag <> [] ->
  exists t, mt_represent (after_predictions N cvx crit tol m bags) bag = Val t /\ length t = d /\
    forall r, (r < d)%nat -> nth r t 0 = mean_of (phi r) bag.
Proof.
  intros A N cvx crit tol m bags bag d phi rep HC HR HA Hb.
  exists (tabulate d (fun r => mean_of (phi r) bag)).
  rewrite (represent_after N cvx crit tol m bags HC), HR. split; [now apply HA|].
  split; [apply tabulate_length|]. intros r Hr. now rewrite tabulate_nth.
Qed.

Lemma DFy_histograms : forall ppf N fuel nb strat crit y preds m, y <> [] ->
  strat = EqualWidth \/ strat = EqualCount ->
  DFy_fit ppf N fuel PDF nb strat crit y preds = Val m ->
  exists cuts, DFy_cuts ppf nb strat y preds = Val cuts /\
    length cuts = n_descriptors (length (np_unique y)) /\ Forall (covering_cuts nb) cuts /\
    (forall c, (c < length (np_unique y))%nat ->
       histograms nb cuts (select (nth c (np_unique y) 0%Z) (y_ext y (length preds)) preds)
         (fun r => mt_T m r c)) /\
    forall cvx tol bags bag, bag <> [] ->
      exists t, mt_represent (after_predictions N cvx crit tol m bags) bag = Val t /\
        length t = (nb * length cuts)%nat /\ histograms nb cuts bag (fun r => nth r t 0).
Proof.
  intros ppf N fuel nb strat crit y preds m Hy Hs H.
  destruct (DFy_fit_inv _ _ _ _ _ _ _ _ _ _ Hy Hs H) as (cuts & HC & Hnb & HL & HV & HM).
  exists cuts. split; [auto|]. split; [auto|]. split; [auto|].
  pose proof (dfy_averages PDF nb cuts Hnb HV) as HA.
  assert (H0 : forall v, dfy_represent PDF cuts [] <> Val v) by (intros v; discriminate).
  destruct (fitted_facts _ _ _ _ _ _ _ _ _ _ HA H0 HM) as (_ & _ & HR & HS & HT).
  split.
  - intros c Hc b Hb. apply (pdf_blocks nb cuts (fun r => mt_T m r c)); auto; intros r Hr; now apply HT.
  - intros cvx tol bags bag Hbag.
    destruct (fit_represent _ _ _ _ _ _ _ _ _ HM) as [_ HK].
    destruct (bag_representation N cvx crit tol m bags bag _ _ _ HK HR HA Hbag) as (t & Ht & Lt & Et).
    exists t. split; [auto|]. split; [auto|]. intros b Hb. apply (pdf_blocks nb cuts (fun r => nth r t 0)); auto.
Qed.

Lemma DFX_histograms : forall ppf N fuel nb strat crit y k X m, y <> [] -> (0 < k)%nat ->
  strat = EqualWidth \/ strat = EqualCount ->
  DFX_fit ppf N fuel PDF nb strat crit y k X = Val m ->
  exists cuts, DFX_cuts ppf nb strat y k X = Val cuts /\
    length cuts = k /\ Forall (covering_cuts nb) cuts /\
    (forall c, (c < length (np_unique y))%nat ->
       histograms nb cuts (select (nth c (np_unique y) 0%Z) y X) (fun r => mt_T m r c)) /\
    forall cvx tol bags bag, bag <> [] ->
      exists t, mt_represent (after_predictions N cvx crit tol m bags) bag = Val t /\
        length t = (nb * length cuts)%nat /\ histograms nb cuts bag (fun r => nth r t 0).
Proof.
  intros ppf N fuel nb strat crit y k X m Hy Hk Hs H.
  destruct (DFX_fit_inv _ _ _ _ _ _ _ _ _ _ _ Hy Hk Hs H) as (cuts & HC & Hnb & HL & HV & HM).
  exists cuts. split; [auto|]. split; [auto|]. split; [auto|].
  pose proof (dfx_averages PDF nb cuts Hnb HV) as HA.
  assert (H0 : forall v, dfx_represent PDF cuts [] <> Val v) by (intros v; discriminate).
  destruct (fitted_facts _ _ _ _ _ _ _ _ _ _ HA H0 HM) as (_ & _ & HR & HS & HT).
  split.
  - intros c Hc b Hb. apply (pdf_blocks nb cuts (fun r => mt_T m r c)); auto; intros r Hr; now apply HT.
  - intros cvx tol bags bag Hbag.
    destruct (fit_represent _ _ _ _ _ _ _ _ _ HM) as [_ HK].
    destruct (bag_representation N cvx crit tol m bags bag _ _ _ HK HR HA Hbag) as (t & Ht & Lt & Et).
    exists t. split; [auto|]. split; [auto|]. intros b Hb. apply (pdf_blocks nb cuts (fun r => nth r t 0)); auto.
Qed.

Lemma last_edge : forall nb cuts b, (0 < nb)%nat -> Forall (covering_cuts nb) cuts -> (b < length cuts)%nat ->
  nth (S (nb - 1)) (nth b cuts []) PosInf = PosInf.
Proof.
  intros nb cuts b Hnb HV Hb. rewrite Forall_forall in HV.
  destruct (HV (nth b cuts []) (nth_In _ _ Hb)) as (L & _ & E & _).
  replace (S (nb - 1)) with nb by lia. rewrite (nth_indep _ PosInf NegInf) by lia. exact E.
Qed.

Lemma col_nonempty : forall b (s : list (list R)), s <> [] -> col b s <> [].
Proof. intros b [|a s] H; [congruence|discriminate]. Qed.

Lemma cumulative_intro : forall nb cuts (T : nat -> R) s (shift : nat -> R), (0 < nb)%nat ->
  Forall (covering_cuts nb) cuts -> s <> [] ->
  (forall b k, (b < length cuts)%nat -> (k < nb)%nat ->
    fraction_in (fun x => value_below x (nth (S k) (nth b cuts []) PosInf)) (col b s)
      (T (b * nb + k)%nat - shift b)) ->
  cumulative_histograms nb cuts s shift T.
Proof.
  intros nb cuts T s shift Hnb HV Hs H b Hb. split.
  - intros k Hk. split; [auto|]. eapply fraction_range. now apply H.
  - eapply fraction_all; [apply (col_nonempty b s Hs)| |apply (H b (nb - 1)%nat Hb)]; [|lia].
    intros x _. cbv beta. rewrite last_edge by auto. exact I.
Qed.

Lemma fraction_in_eq : forall {A} (P : A -> Prop) l v w, v = w -> fraction_in P l v -> fraction_in P l w.
Proof. intros; subst; auto. Qed.

Lemma DFX_cumulative : forall ppf N fuel nb strat crit y k X m, y <> [] -> (0 < k)%nat ->
  strat = EqualWidth \/ strat = EqualCount ->
  DFX_fit ppf N fuel CDF nb strat crit y k X = Val m ->
  exists cuts, DFX_cuts ppf nb strat y k X = Val cuts /\
    length cuts = k /\ Forall (covering_cuts nb) cuts /\
    (forall c, (c < length (np_unique y))%nat ->
       cumulative_histograms nb cuts (select (nth c (np_unique y) 0%Z) y X) (fun _ => 0)
         (fun r => mt_T m r c)) /\
    forall cvx tol bags bag, bag <> [] ->
      exists t, mt_represent (after_predictions N cvx crit tol m bags) bag = Val t /\
        length t = (nb * length cuts)%nat /\
        cumulative_histograms nb cuts bag (fun _ => 0) (fun r => nth r t 0).
Proof.
  intros ppf N fuel nb strat crit y k X m Hy Hk Hs H.
  destruct (DFX_fit_inv _ _ _ _ _ _ _ _ _ _ _ Hy Hk Hs H) as (cuts & HC & Hnb & HL & HV & HM).
  exists cuts. split; [auto|]. split; [auto|]. split; [auto|].
  pose proof (dfx_averages CDF nb cuts Hnb HV) as HA.
  assert (H0 : forall v, dfx_represent CDF cuts [] <> Val v) by (intros v; discriminate).
  destruct (fitted_facts _ _ _ _ _ _ _ _ _ _ HA H0 HM) as (_ & _ & HR & HS & HT).
  assert (G : forall (T : nat -> R) s, s <> [] ->
            (forall r, (r < nb * length cuts)%nat -> T r = mean_of (cdfx_phi nb cuts r) s) ->
            cumulative_histograms nb cuts s (fun _ => 0) T).
  { intros T s Hne HE. apply cumulative_intro; auto. intros b j Hb Hj.
    eapply fraction_in_eq; [|eapply cdfx_blocks; eauto]. lra. }
  split.
  - intros c Hc. apply (G (fun r => mt_T m r c)); [now apply HS|]. intros r Hr. now apply HT.
  - intros cvx tol bags bag Hbag.
    destruct (fit_represent _ _ _ _ _ _ _ _ _ HM) as [_ HK].
    destruct (bag_representation N cvx crit tol m bags bag _ _ _ HK HR HA Hbag) as (t & Ht & Lt & Et).
    exists t. split; [auto|]. split; [auto|]. now apply (G (fun r => nth r t 0)).
Qed.

Lemma DFy_cumulative : forall ppf N fuel nb strat crit y preds m, y <> [] ->
  strat = EqualWidth \/ strat = EqualCount ->
  DFy_fit ppf N fuel CDF nb strat crit y preds = Val m ->
  exists cuts, DFy_cuts ppf nb strat y preds = Val cuts /\
    length cuts = n_descriptors (length (np_unique y)) /\ Forall (covering_cuts nb) cuts /\
    (forall c, (c < length (np_unique y))%nat ->
       cumulative_histograms nb cuts (select (nth c (np_unique y) 0%Z) (y_ext y (length preds)) preds)
         INR (fun r => mt_T m r c)) /\
    forall cvx tol bags bag, bag <> [] ->
      exists t, mt_represent (after_predictions N cvx crit tol m bags) bag = Val t /\
        length t = (nb * length cuts)%nat /\
        cumulative_histograms nb cuts bag INR (fun r => nth r t 0).
Proof.
  intros ppf N fuel nb strat crit y preds m Hy Hs H.
  destruct (DFy_fit_inv _ _ _ _ _ _ _ _ _ _ Hy Hs H) as (cuts & HC & Hnb & HL & HV & HM).
  exists cuts. split; [auto|]. split; [auto|]. split; [auto|].
  pose proof (dfy_averages CDF nb cuts Hnb HV) as HA.
  assert (H0 : forall v, dfy_represent CDF cuts [] <> Val v) by (intros v; discriminate).
  destruct (fitted_facts _ _ _ _ _ _ _ _ _ _ HA H0 HM) as (_ & _ & HR & HS & HT).
  assert (G : forall (T : nat -> R) s, s <> [] ->
            (forall r, (r < nb * length cuts)%nat -> T r = mean_of (cdfy_phi nb cuts r) s) ->
            cumulative_histograms nb cuts s INR T).
  { intros T s Hne HE. apply cumulative_intro; auto. intros b j Hb Hj.
    eapply cdfy_blocks; eauto. }
  split.
  - intros c Hc. apply (G (fun r => mt_T m r c)); [now apply HS|]. intros r Hr. now apply HT.
  - intros cvx tol bags bag Hbag.
    destruct (fit_represent _ _ _ _ _ _ _ _ _ HM) as [_ HK].
    destruct (bag_representation N cvx crit tol m bags bag _ _ _ HK HR HA Hbag) as (t & Ht & Lt & Et).
    exists t. split; [auto|]. split; [auto|]. now apply (G (fun r => nth r t 0)).
Qed.

(** ** Balance of the equal_count cut points *)

Lemma how_many_perm : forall {A} (P : A -> Prop) l l', Permutation l l' -> forall k, how_many P l k -> how_many P l' k.
Proof.
  intros A P l l' H. induction H; intros k Hk; auto.
  - inversion Hk; subst; [apply hm_yes|apply hm_no]; auto.
  - inversion Hk as [|? ? ? Hy Hl|? ? ? Hy Hl]; subst; inversion Hl; subst.
    + apply hm_yes; auto. apply hm_yes; auto.
    + apply hm_no; auto. apply hm_yes; auto.
    + apply hm_yes; auto. apply hm_no; auto.
    + apply hm_no; auto. apply hm_no; auto.
Qed.

Lemma how_many_app : forall {A} (P : A -> Prop) a b i j, how_many P a i -> how_many P b j ->
  how_many P (a ++ b) (i + j).
Proof.
  intros A P a b i j Ha Hb. induction Ha; simpl; auto; [apply hm_yes|apply hm_no]; auto.
Qed.
Lemma how_many_full : forall {A} (P : A -> Prop) a, (forall x, In x a -> P x) -> how_many P a (length a).
Proof. induction a; intros H; simpl; [constructor|]. apply hm_yes; [apply H; now left|]. apply IHa. intros; apply H; now right. Qed.
Lemma how_many_none : forall {A} (P : A -> Prop) a, (forall x, In x a -> ~ P x) -> how_many P a 0.
Proof. induction a; intros H; simpl; [constructor|]. apply hm_no; [apply H; now left|]. apply IHa. intros; apply H; now right. Qed.

Lemma sorted_strict : forall s i j, sorted s -> NoDup s -> (i < j)%nat -> (j < length s)%nat ->
  nth i s 0 < nth j s 0.
Proof.
  intros s i j Hs Hd Hij Hj. assert (nth i s 0 <= nth j s 0) by (apply Hs; lia).
  assert (nth i s 0 <> nth j s 0).
  { intros E. apply (proj1 (NoDup_nth s 0) Hd) in E; lia. }
  lra.
Qed.

Lemma cut_count : forall s c cut, sorted s -> NoDup s -> (0 < c)%nat -> (c < length s)%nat ->
  cut = (nth (c - 1) s 0 + nth c s 0) / 2 -> how_many (fun v => v < cut) s c.
Proof.
  intros s c cut Hs Hd Hc Hl E.
  pose proof (sorted_strict s (c - 1) c Hs Hd ltac:(lia) Hl) as HS.
  rewrite <- (firstn_skipn c s).
  replace c with (length (firstn c s) + 0)%nat at 3 by (rewrite firstn_length; lia).
  apply how_many_app.
  - apply how_many_full. intros x Hx. destruct (In_nth _ _ 0 Hx) as (i & Hi & <-).
    rewrite firstn_length in Hi.
    assert (EF : nth i (firstn c s) 0 = nth i s 0).
    { rewrite <- (firstn_skipn c s) at 2. rewrite app_nth1; [reflexivity|rewrite firstn_length; lia]. }
    rewrite EF.
    assert (nth i s 0 <= nth (c - 1) s 0) by (apply Hs; lia). lra.
  - apply how_many_none. intros x Hx. destruct (In_nth _ _ 0 Hx) as (i & Hi & <-).
    rewrite skipn_length in Hi.
    assert (EF : nth i (skipn c s) 0 = nth (c + i) s 0).
    { rewrite <- (firstn_skipn c s) at 2. rewrite app_nth2 by (rewrite firstn_length; lia).
      f_equal. rewrite firstn_length. lia. }
    rewrite EF.
    assert (nth c s 0 <= nth (c + i) s 0) by (apply Hs; lia). lra.
Qed.

(** About [i/n] of the values are below cut point [i]. *)
Lemma equal_count_balanced : forall ppf x y classes n range i, NoDup x -> (n < 2 * length x)%nat -> (0 < i < n)%nat ->
  exists cuts k, compute_bincuts ppf x y classes n EqualCount range = Val cuts /\
    how_many (fun v => value_below v (nth i cuts PosInf)) x k /\
    Rabs (INR k - INR (length x * i) / INR n) <= 1/2.
Proof.
  intros ppf x y classes n range i Hd Hl Hi. unfold compute_bincuts. destruct n as [|n']; [lia|].
  set (n := S n') in *. set (s := rsort x).
  assert (Ls : length s = length x) by apply rsort_length.
  pose (g := fun i => (nth (cut_index (length s) n i - 1) s 0 + nth (cut_index (length s) n i) s 0) / 2).
  assert (EC : collect (map (equal_count_cut s n) (seq 1 (n - 1))) = Val (map g (seq 1 (n - 1)))).
  { apply (collect_val (equal_count_cut s n) g). intros j Hj. apply in_seq in Hj. apply equal_count_value; lia. }
  rewrite EC. exists (wrapped (map g (seq 1 (n - 1)))), (cut_index (length s) n i).
  split; [reflexivity|]. split; [|rewrite <- Ls; apply cut_index_R; lia].
  destruct (cut_index_inside (length s) n i ltac:(lia) Hi) as [H1 H2].
  assert (EN : nth i (wrapped (map g (seq 1 (n - 1)))) PosInf = Fin (g i)).
  { destruct i as [|j]; [lia|]. rewrite wrapped_nth by (rewrite map_length, seq_length; lia).
    rewrite (nth_indep _ 0 (g O)) by (rewrite map_length, seq_length; lia).
    rewrite (map_nth g), seq_nth by lia. reflexivity. }
  rewrite EN. apply (how_many_perm _ s x (rsort_perm x)).
  apply (cut_count s (cut_index (length s) n i) (g i)); auto.
  - apply rsort_sorted.
  - eapply Permutation_NoDup; [apply Permutation_sym, rsort_perm|exact Hd].
Qed.

(** ** Optimality *)

Lemma estimate_best : forall {A} N fuel cvx dist tol d (rep : list A -> out (list R)) cols bags bag p,
  let m := new_matcher N fuel (Named dist) d rep cols in
  exact_cvx cvx -> exact_qp (solve_qp N) ->
  (dist = HD -> equal_mass m) -> (dist = L2 -> independent_columns d (length cols) (mt_T m)) ->
  (forall v, rep bag = Val v -> length v = d) ->
  snd (matching_predict N cvx (Named dist) tol (after_predictions N cvx (Named dist) tol m bags) bag) = Val p ->
  exists t, rep bag = Val t /\ best_for dist d (length cols) (mt_T m) t p.
Proof.
  intros A N fuel cvx dist tol d rep cols bags bag p m Hc Hq HM HI HL H.
  destruct (predicted_state N cvx (Named dist) tol bags m (new_matcher_cache _ _ _ _ _ _)) as [S C].
  set (m' := after_predictions N cvx (Named dist) tol m bags) in *.
  destruct S as (E1 & E2 & E3 & E4 & E5).
  unfold matching_predict in H. rewrite E5 in H. change (mt_represent m) with rep in H.
  destruct (rep bag) as [t| |] eqn:ET; try discriminate.
  exists t. split; [reflexivity|]. specialize (HL t eq_refl).
  assert (T1 : mt_classes m' = length cols) by (rewrite E1; reflexivity).
  assert (T2 : mt_bins m' = d) by (rewrite E2; reflexivity).
  rewrite <- E3, <- T1, <- T2 in *.
  destruct dist; cbn [best_for].
  - eapply hd_cached_best; eauto. specialize (HM eq_refl). unfold equal_mass in *. rewrite E1, E2, E3. exact HM.
  - unfold estimate in H. cbn [snd] in H. rewrite E4 in H.
    assert (EL : mt_l2 m = compute_l2_param_train N fuel (mt_bins m') (mt_classes m') (mt_T m')).
    { unfold m, new_matcher. cbn [mt_l2]. rewrite T1, T2, E3. reflexivity. }
    destruct (mt_l2 m) as [[[G Cm] b]|]; [|discriminate].
    eapply (l2_best N fuel); eauto. now apply gram2_pd, HI.
  - eapply l1_cached_best; eauto.
  - discriminate.
Qed.

Lemma fitted_columns : forall {A} N fuel crit d phi (rep : list A -> out (list R)) classes ye rows m,
  averages d phi rep -> (forall v, rep [] <> Val v) ->
  fit_matching N fuel crit d rep classes ye rows = Val m ->
  m = new_matcher N fuel crit d rep (columns_of d phi (class_samples classes ye rows)) /\
  length (columns_of d phi (class_samples classes ye rows)) = mt_classes m /\ mt_bins m = d /\
  (forall bag v, rep bag = Val v -> length v = d).
Proof.
  intros A N fuel crit d phi rep classes ye rows m HA H0 H.
  destruct (fit_matching_inv _ _ _ _ _ _ _ _ _ _ HA H0 H) as (-> & HN & L).
  split; [reflexivity|]. split; [reflexivity|]. split; [reflexivity|].
  intros [|a s] v Hv; [exfalso; eapply H0; eauto|].
  rewrite HA in Hv by discriminate. inversion Hv. apply tabulate_length.
Qed.

Lemma DFy_best : forall ppf N fuel cvx kind nb strat dist tol y preds m bags bag p,
  exact_cvx cvx -> exact_qp (solve_qp N) -> (dist = HD -> kind = PDF) ->
  (dist = L2 -> independent_columns (mt_bins m) (mt_classes m) (mt_T m)) ->
  y <> [] -> strat = EqualWidth \/ strat = EqualCount ->
  DFy_fit ppf N fuel kind nb strat (Named dist) y preds = Val m ->
  snd (matching_predict N cvx (Named dist) tol (after_predictions N cvx (Named dist) tol m bags) bag) = Val p ->
  exists t, mt_represent m bag = Val t /\ best_for dist (mt_bins m) (mt_classes m) (mt_T m) t p.
Proof.
  intros ppf N fuel cvx kind nb strat dist tol y preds m bags bag p HX HQ Hk HI Hy Hs HF H.
  destruct (DFy_fit_inv _ _ _ _ _ _ _ _ _ _ Hy Hs HF) as (cuts & EC & Hnb & LC & HC & HM).
  pose proof (dfy_averages kind nb cuts Hnb HC) as HA.
  destruct (fit_matching_inv _ _ _ _ _ _ _ _ _ _ HA (dfy_nil kind cuts) HM) as (_ & HN & _).
  destruct (fitted_columns _ _ _ _ _ _ _ _ _ _ HA (dfy_nil kind cuts) HM) as (-> & L1' & L2' & L3).
  eapply (estimate_best N fuel cvx dist tol); eauto.
  intros E. rewrite (Hk E). apply (equal_mass_intro _ _ _ _ _ _ _ (INR (length cuts))); auto.
  - intros r x. apply ind_nonneg.
  - intros s x _ _. apply pdf_mass; auto.
Qed.

Lemma DFX_best : forall ppf N fuel cvx kind nb strat dist tol y k X m bags bag p,
  exact_cvx cvx -> exact_qp (solve_qp N) -> (dist = HD -> kind = PDF) ->
  (dist = L2 -> independent_columns (mt_bins m) (mt_classes m) (mt_T m)) ->
  y <> [] -> (0 < k)%nat -> strat = EqualWidth \/ strat = EqualCount ->
  DFX_fit ppf N fuel kind nb strat (Named dist) y k X = Val m ->
  snd (matching_predict N cvx (Named dist) tol (after_predictions N cvx (Named dist) tol m bags) bag) = Val p ->
  exists t, mt_represent m bag = Val t /\ best_for dist (mt_bins m) (mt_classes m) (mt_T m) t p.
Proof.
  intros ppf N fuel cvx kind nb strat dist tol y k X m bags bag p HX HQ Hk HI Hy Hk0 Hs HF H.
  destruct (DFX_fit_inv _ _ _ _ _ _ _ _ _ _ _ Hy Hk0 Hs HF) as (cuts & EC & Hnb & LC & HC & HM).
  pose proof (dfx_averages kind nb cuts Hnb HC) as HA.
  destruct (fit_matching_inv _ _ _ _ _ _ _ _ _ _ HA (dfx_nil kind cuts) HM) as (_ & HN & _).
  destruct (fitted_columns _ _ _ _ _ _ _ _ _ _ HA (dfx_nil kind cuts) HM) as (-> & L1' & L2' & L3).
  eapply (estimate_best N fuel cvx dist tol); eauto.
  intros E. rewrite (Hk E). apply (equal_mass_intro _ _ _ _ _ _ _ (INR (length cuts))); auto.
  - intros r x. apply ind_nonneg.
  - intros s x _ _. apply pdf_mass; auto.
Qed.

Lemma Friedman_best : forall N fuel cvx dist tol y preds m bags bag p,
  exact_cvx cvx -> exact_qp (solve_qp N) -> dist <> HD ->
  (dist = L2 -> independent_columns (mt_bins m) (mt_classes m) (mt_T m)) ->
  FriedmanME_fit N fuel (Named dist) y preds = Val m ->
  snd (matching_predict N cvx (Named dist) tol (after_predictions N cvx (Named dist) tol m bags) bag) = Val p ->
  exists t, mt_represent m bag = Val t /\ best_for dist (mt_bins m) (mt_classes m) (mt_T m) t p.
Proof.
  intros N fuel cvx dist tol y preds m bags bag p HX HQ Hd HI HF H. unfold FriedmanME_fit in HF.
  set (prevs := map (fun c => INR (zcount c y) / INR (length y)) (np_unique y)) in *.
  pose proof (friedman_averages prevs) as HA. unfold prevs in HA at 1. rewrite map_length in HA.
  assert (H0 : forall v, friedman_represent prevs [] <> Val v) by (intros v; discriminate).
  destruct (fitted_columns _ _ _ _ _ _ _ _ _ _ HA H0 HF) as (-> & L1' & L2' & L3).
  eapply (estimate_best N fuel cvx dist tol); eauto. congruence.
Qed.

Lemma PDFO_matching_best : forall N fuel cvx n_bins d meth y preds m bags bag p,
  exact_cvx cvx -> exact_qp (solve_qp N) -> d <> OtherOrdinalDistance ->
  distributions (length (np_unique y)) preds ->
  (d = OL2 -> independent_columns (mt_bins m) (mt_classes m) (mt_T m)) ->
  PDFO_fit N fuel n_bins d meth y preds = Val m ->
  snd (matching_predict N cvx (pdfo_criterion d) 0 (after_predictions N cvx (pdfo_criterion d) 0 m bags) bag) = Val p ->
  exists t dist, pdfo_criterion d = Named dist /\
    mt_represent m bag = Val t /\ best_for dist (mt_bins m) (mt_classes m) (mt_T m) t p.
Proof.
  intros N fuel cvx n_bins d meth y preds m bags bag p HX HQ Hd HDp HI HF H.
  destruct (PDFO_fit_inv _ _ _ _ _ _ _ _ HF) as (Hnb & Hn & Hm & HM).
  set (n := length (np_unique y)) in *.
  pose proof (pdfo_averages' n_bins n meth (is_emd d) Hnb ltac:(lia)) as HA.
  destruct (fit_matching_inv _ _ _ _ _ _ _ _ _ _ HA (pdfo_nil n_bins n meth (is_emd d)) HM) as (_ & HN & L).
  destruct (fitted_columns _ _ _ _ _ _ _ _ _ _ HA (pdfo_nil n_bins n meth (is_emd d)) HM) as (-> & L1' & L2' & L3).
  set (samples := class_samples (np_unique y) (y_ext y (length preds)) preds) in *.
  assert (HP : forall s x, In s samples -> In x s ->
    sumn (n_bins * (n - 1)) (fun k => pdfo_feature n_bins n meth k x) = 1).
  { intros s x Hs Hx. apply pdfo_mass; auto; [lia|].
    unfold distributions in HDp. rewrite Forall_forall in HDp. apply HDp.
    eapply samples_members; eauto. }
  assert (Hdist : exists dist, pdfo_criterion d = Named dist /\ dist <> OtherDistance /\
    (is_emd d = true -> dist = L1) /\ (is_emd d = false -> dist = HD \/ dist = L2) /\ (dist = L2 -> d = OL2)).
  { destruct d; [exists HD|exists L2|exists L1|congruence]; repeat split; try discriminate; auto. }
  destruct Hdist as (dist & Ed & Nd & H1 & H2 & H3).
  rewrite Ed in *.
  assert (G : exists t, pdfo_represent n_bins n meth (is_emd d) bag = Val t /\
    best_for dist (pdfo_dim n_bins n (is_emd d)) (length (columns_of (pdfo_dim n_bins n (is_emd d))
       (pdfo_phi n_bins n meth (is_emd d)) samples))
      (mt_T (new_matcher N fuel (Named dist) (pdfo_dim n_bins n (is_emd d)) (pdfo_represent n_bins n meth (is_emd d))
       (columns_of (pdfo_dim n_bins n (is_emd d)) (pdfo_phi n_bins n meth (is_emd d)) samples))) t p).
  { eapply (estimate_best N fuel cvx dist 0); eauto.
    intros E. destruct (is_emd d); [rewrite H1 in E by auto; discriminate|].
    apply (equal_mass_intro _ _ _ _ _ _ _ 1); auto using pdfo_phi_nonneg. }
  destruct G as (t & Ht & HB). exists t, dist. split; [auto|]. split; [exact Ht|exact HB].
Qed.
