(** * A function as distance; the cut points of the normal strategies *)

From Coq Require Import Reals List ZArith Lra Lia Permutation.
From Verif Require Import Num Spec L_Num M_Baselines M_Metrics M_Search Spec_Search L_Search2 L_Search3 L_Optim4 M_Optim Spec_Optim M_Match Spec_Match
  L_Baselines L_Match L_Match2 L_Match3 L_Match4 L_Match5 L_Match6 L_Match7 L_Match8 L_Match9 L_Match12.
Import ListNotations.
Open Scope R_scope.

Lemma vmap2_tabulate : forall f n a b, vmap2 f (tabulate n a) (tabulate n b) = tabulate n (fun i => f (a i) (b i)).
Proof.
  intros f n a b. unfold tabulate. induction (seq 0 n) as [|i l IH]; [reflexivity|].
  cbn [map vmap2]. now rewrite IH.
Qed.

Lemma mixture_columns : forall {B} (m : matcher B) p,
  mixture_of_pdfs p (train_column m 1) (train_column m 0) = mixture (mt_bins m) 2 (mt_T m) [1 - p; p].
Proof.
  intros B m p. unfold mixture_of_pdfs, mixture, train_column. rewrite vmap2_tabulate.
  apply tabulate_ext. intros r Hr. unfold mixture_at. cbn. ring.
Qed.

Lemma function_best : forall {A} N cvx f tol (m : matcher (list A)) bags bag t best,
  cache_ok (Callable f) m -> mt_classes m = 2%nat -> mt_represent m bag = Val t -> 0 < tol <= 1/100 ->
  strictly_unimodal (two_class_loss f m t) 0 1 best ->
  best <= 98/100 \/ two_class_loss f m t 1 < two_class_loss f m t 0 ->
  exists p, snd (matching_predict N cvx (Callable f) tol
                   (after_predictions N cvx (Callable f) tol m bags) bag) = Val [1 - p; p] /\
    Rabs (p - best) <= 2 * tol.
Proof.
  intros A N cvx f tol m bags bag t best HC H2 Ht Htol HU HB.
  destruct (predicted_state N cvx (Callable f) tol bags m HC) as [S C].
  assert (HW : Callable f = Named HD \/ Callable f = Named L1 -> ignores_warm_start cvx)
    by (intros [E|E]; discriminate E).
  rewrite (matching_predict_answer N cvx (Callable f) tol m _ bag HW S HC C).
  unfold matching_predict. rewrite Ht. unfold estimate. cbv zeta. rewrite H2. cbn [Nat.ltb Nat.leb].
  set (g := fun p => mixture_of_pdfs p (train_column m 1) (train_column m 0)).
  assert (G : forall p, f (g p) t = two_class_loss f m t p).
  { intros p. unfold g, two_class_loss. now rewrite mixture_columns. }
  destruct (global_unimodal (two_class_loss f m t) tol best Htol HU HB) as (p & Hp & Hd).
  exists p. split; [|exact Hd].
  assert (GS : global_search_from (fun p => f (g p) t) tol (fun i => f (g (INR i / 100)) t) = Val p).
  { rewrite <- Hp. f_equal.
    - apply Coq.Logic.FunctionalExtensionality.functional_extensionality. intros q. apply G.
    - apply Coq.Logic.FunctionalExtensionality.functional_extensionality. intros q. apply G. }
  pose proof (global_search_stored f g t tol) as (E1 & E2 & _). rewrite GS in E1, E2.
  assert (E : exists ms, global_search f g t tol (mt_mixtures m) true = Val (ms, p)).
  { destruct HC as [_ HM]. destruct (mt_mixtures m) as [ms|] eqn:EM.
    - subst ms. eexists. unfold stored_mixtures. exact E2.
    - eexists. exact E1. }
  destruct E as (ms & ->). reflexivity.
Qed.

Lemma differences_scale : forall d n T p q (t : list R), n = 2%nat -> length t = d ->
  (forall r, (r < d)%nat -> nth r t 0 = mixture_at n T [1 - q; q] r) ->
  sum_of_differences (mixture d n T [1 - p; p]) t = Rabs (p - q) * sumn d (fun r => Rabs (T r 1%nat - T r 0%nat)).
Proof.
  intros d n T p q t -> L H. unfold sum_of_differences, mixture.
  rewrite (vmap2_sum Rabs Rminus d) by (auto using tabulate_length). rewrite <- sumn_scal.
  apply sumn_ext. intros r Hr. rewrite tabulate_nth, H, <- Rabs_mult by auto. f_equal. unfold mixture_at. cbn. ring.
Qed.

Lemma function_recovers : forall {A} N cvx tol (m : matcher (list A)) bags bag t q,
  cache_ok (Callable sum_of_differences) m -> mt_classes m = 2%nat ->
  identifiable (mt_bins m) (mt_classes m) (mt_T m) ->
  mt_represent m bag = Val t -> length t = mt_bins m -> distribution_over 2 q ->
  (forall r, (r < mt_bins m)%nat -> nth r t 0 = mixture_at 2 (mt_T m) q r) ->
  0 < tol <= 1/100 ->
  exists p, snd (matching_predict N cvx (Callable sum_of_differences) tol
                   (after_predictions N cvx (Callable sum_of_differences) tol m bags) bag) = Val [1 - p; p] /\
    Rabs (p - nth 1 q 0) <= 2 * tol.
Proof.
  intros A N cvx tol m bags bag t q HC H2 HI Ht Lt Dq HT Htol.
  destruct Dq as (Lq & Hq & Sq). destruct q as [|q0 [|q1 [|q2 q']]]; try discriminate.
  pose proof (Forall_inv Hq) as Hq0. pose proof (Forall_inv (Forall_inv_tail Hq)) as Hq1. cbv beta in Hq0, Hq1.
  simpl in Sq. assert (E0 : q0 = 1 - q1) by lra. subst q0. cbn [nth].
  set (K := sumn (mt_bins m) (fun r => Rabs (mt_T m r 1%nat - mt_T m r 0%nat))).
  assert (EL : forall p, two_class_loss sum_of_differences m t p = Rabs (p - q1) * K).
  { intros p. unfold two_class_loss. now apply differences_scale. }
  assert (K0 : 0 <= K) by (apply sumn_nonneg; intros; apply Rabs_pos).
  assert (KP : 0 < K).
  { destruct (Req_dec K 0) as [Z|]; [|lra]. exfalso.
    assert (E : [1; 0] = [0; 1]).
    { rewrite H2 in HI. apply HI.
      - split; [reflexivity|]. split; [|simpl; lra]. repeat (apply Forall_cons; [lra|]). apply Forall_nil.
      - split; [reflexivity|]. split; [|simpl; lra]. repeat (apply Forall_cons; [lra|]). apply Forall_nil.
      - intros r Hr. unfold mixture_at. cbn.
        assert (Rabs (mt_T m r 1%nat - mt_T m r 0%nat) <= 0).
        { rewrite <- Z. apply (sumn_ge_term (mt_bins m) (fun r => Rabs (mt_T m r 1%nat - mt_T m r 0%nat)) r); auto.
          intros; apply Rabs_pos. }
        pose proof (Rabs_pos (mt_T m r 1%nat - mt_T m r 0%nat)).
        assert (Z1 : Rabs (mt_T m r 1%nat - mt_T m r 0%nat) = 0) by lra.
        destruct (Req_dec (mt_T m r 1%nat - mt_T m r 0%nat) 0) as [|N0]; [lra|].
        apply Rabs_no_R0 in N0. contradiction. }
    inversion E. lra. }
  apply (function_best N cvx sum_of_differences tol m bags bag t q1); auto.
  - split; [lra|]. split; intros x y Hx Hxy Hy; rewrite !EL; apply Rmult_lt_compat_r; auto.
    + rewrite !Rabs_left1 by lra. lra.
    + rewrite !Rabs_pos_eq by lra. lra.
  - destruct (Rle_dec q1 (98/100)) as [|N1]; [now left|right]. rewrite !EL. apply Rmult_lt_compat_r; auto.
    rewrite (Rabs_pos_eq (1 - q1)) by lra. rewrite (Rabs_left1 (0 - q1)) by lra. lra.
Qed.

Lemma function_consistent : forall {A} N fuel cvx tol d phi (rep : list A -> out (list R)) classes ye rows m bags ks bag,
  averages d phi rep -> (forall v, rep [] <> Val v) ->
  fit_matching N fuel (Callable sum_of_differences) d rep classes ye rows = Val m ->
  length classes = 2%nat -> identifiable (mt_bins m) (mt_classes m) (mt_T m) -> 0 < tol <= 1/100 ->
  let samples := class_samples classes ye rows in
  copies_of ks samples bag -> bag <> [] ->
  exists p, snd (matching_predict N cvx (Callable sum_of_differences) tol
                   (after_predictions N cvx (Callable sum_of_differences) tol m bags) bag) = Val [1 - p; p] /\
    Rabs (p - nth 1 (copies_prevalences ks samples bag) 0) <= 2 * tol.
Proof.
  intros A N fuel cvx tol d phi rep classes ye rows m bags ks bag HA H0 HF H2 HI Htol samples HK Hb.
  destruct (fit_matching_inv _ _ _ _ _ _ _ _ _ _ HA H0 HF) as (EM & HN & L). fold samples in EM, HN.
  destruct (copies_represented N fuel (Callable sum_of_differences) d phi rep samples HA HN ks bag HK Hb)
    as (t & Et & Lt & Ht).
  assert (LS : length samples = 2%nat) by (unfold samples; now rewrite class_samples_length).
  assert (MC : mt_classes m = 2%nat) by (rewrite EM, fitted_classes; exact LS).
  rewrite <- EM in Ht.
  apply (function_recovers N cvx tol m bags bag t); auto.
  - rewrite EM. apply new_matcher_cache.
  - rewrite EM. exact Et.
  - rewrite EM. exact Lt.
  - rewrite <- LS. now apply copies_prevalences_distribution.
  - intros r Hr. rewrite Ht by (rewrite EM in Hr; exact Hr). now rewrite MC.
Qed.

(** ** The quantifiers with a function as distance *)

Lemma DFy_function_best : forall ppf N fuel cvx kind nb strat f tol y preds m bags bag t best,
  DFy_fit ppf N fuel kind nb strat (Callable f) y preds = Val m -> length (np_unique y) = 2%nat ->
  mt_represent m bag = Val t -> 0 < tol <= 1/100 ->
  strictly_unimodal (two_class_loss f m t) 0 1 best ->
  best <= 98/100 \/ two_class_loss f m t 1 < two_class_loss f m t 0 ->
  exists p, snd (matching_predict N cvx (Callable f) tol
                   (after_predictions N cvx (Callable f) tol m bags) bag) = Val [1 - p; p] /\
    Rabs (p - best) <= 2 * tol.
Proof.
  intros ppf N fuel cvx kind nb strat f tol y preds m bags bag t best HF H2 Ht Htol HU HB.
  assert (MC : mt_classes m = 2%nat).
  { unfold DFy_fit in HF. destruct (DFy_cuts _ _ _ _ _); try discriminate. cbn [obind] in HF.
    unfold fit_matching in HF. destruct (Nat.eqb _ _); [|discriminate].
    destruct (collect _) as [cols| |] eqn:E; try discriminate. cbn in HF. inversion HF. cbn.
    apply collect_length in E. now rewrite E, map_length. }
  destruct (DFy_represent _ _ _ _ _ _ _ _ _ _ HF) as (cuts & _ & C). eapply function_best; eauto.
Qed.

Lemma DFX_function_best : forall ppf N fuel cvx kind nb strat f tol y k X m bags bag t best,
  DFX_fit ppf N fuel kind nb strat (Callable f) y k X = Val m -> length (np_unique y) = 2%nat ->
  mt_represent m bag = Val t -> 0 < tol <= 1/100 ->
  strictly_unimodal (two_class_loss f m t) 0 1 best ->
  best <= 98/100 \/ two_class_loss f m t 1 < two_class_loss f m t 0 ->
  exists p, snd (matching_predict N cvx (Callable f) tol
                   (after_predictions N cvx (Callable f) tol m bags) bag) = Val [1 - p; p] /\
    Rabs (p - best) <= 2 * tol.
Proof.
  intros ppf N fuel cvx kind nb strat f tol y k X m bags bag t best HF H2 Ht Htol HU HB.
  assert (MC : mt_classes m = 2%nat).
  { unfold DFX_fit in HF. destruct (DFX_cuts _ _ _ _ _ _); try discriminate. cbn [obind] in HF.
    unfold fit_matching in HF. destruct (Nat.eqb _ _); [|discriminate].
    destruct (collect _) as [cols| |] eqn:E; try discriminate. cbn in HF. inversion HF. cbn.
    apply collect_length in E. now rewrite E, map_length. }
  destruct (DFX_represent _ _ _ _ _ _ _ _ _ _ _ HF) as (cuts & _ & C). eapply function_best; eauto.
Qed.

Lemma Friedman_function_best : forall N fuel cvx f tol y preds m bags bag t best,
  FriedmanME_fit N fuel (Callable f) y preds = Val m -> length (np_unique y) = 2%nat ->
  mt_represent m bag = Val t -> 0 < tol <= 1/100 ->
  strictly_unimodal (two_class_loss f m t) 0 1 best ->
  best <= 98/100 \/ two_class_loss f m t 1 < two_class_loss f m t 0 ->
  exists p, snd (matching_predict N cvx (Callable f) tol
                   (after_predictions N cvx (Callable f) tol m bags) bag) = Val [1 - p; p] /\
    Rabs (p - best) <= 2 * tol.
Proof.
  intros N fuel cvx f tol y preds m bags bag t best HF H2 Ht Htol HU HB.
  assert (MC : mt_classes m = 2%nat).
  { unfold FriedmanME_fit, fit_matching in HF. destruct (Nat.eqb _ _); [|discriminate].
    destruct (collect _) as [cols| |] eqn:E; try discriminate. cbn in HF. inversion HF. cbn.
    apply collect_length in E. now rewrite E, map_length. }
  destruct (fit_represent _ _ _ _ _ _ _ _ _ HF) as (_ & C). eapply function_best; eauto.
Qed.

Lemma DFy_function_recovers : forall ppf N fuel cvx kind nb strat tol y preds m bags ks bag,
  y <> [] -> strat = EqualWidth \/ strat = EqualCount ->
  DFy_fit ppf N fuel kind nb strat (Callable sum_of_differences) y preds = Val m ->
  length (np_unique y) = 2%nat -> identifiable (mt_bins m) (mt_classes m) (mt_T m) -> 0 < tol <= 1/100 ->
  let samples := class_samples (np_unique y) (y_ext y (length preds)) preds in
  copies_of ks samples bag -> bag <> [] ->
  exists p, snd (matching_predict N cvx (Callable sum_of_differences) tol
                   (after_predictions N cvx (Callable sum_of_differences) tol m bags) bag) = Val [1 - p; p] /\
    Rabs (p - nth 1 (copies_prevalences ks samples bag) 0) <= 2 * tol.
Proof.
  intros ppf N fuel cvx kind nb strat tol y preds m bags ks bag Hy Hs HF H2 HI Ht samples HK Hb.
  destruct (DFy_fit_inv _ _ _ _ _ _ _ _ _ _ Hy Hs HF) as (cuts & EC & Hnb & LC & HC & HM).
  pose proof (dfy_averages kind nb cuts Hnb HC) as HA.
  eapply function_consistent; eauto. apply dfy_nil.
Qed.

Lemma DFX_function_recovers : forall ppf N fuel cvx kind nb strat tol y k X m bags ks bag,
  y <> [] -> (0 < k)%nat -> strat = EqualWidth \/ strat = EqualCount ->
  DFX_fit ppf N fuel kind nb strat (Callable sum_of_differences) y k X = Val m ->
  length (np_unique y) = 2%nat -> identifiable (mt_bins m) (mt_classes m) (mt_T m) -> 0 < tol <= 1/100 ->
  let samples := class_samples (np_unique y) y X in
  copies_of ks samples bag -> bag <> [] ->
  exists p, snd (matching_predict N cvx (Callable sum_of_differences) tol
                   (after_predictions N cvx (Callable sum_of_differences) tol m bags) bag) = Val [1 - p; p] /\
    Rabs (p - nth 1 (copies_prevalences ks samples bag) 0) <= 2 * tol.
Proof.
  intros ppf N fuel cvx kind nb strat tol y k X m bags ks bag Hy Hk Hs HF H2 HI Ht samples HK Hb.
  destruct (DFX_fit_inv _ _ _ _ _ _ _ _ _ _ _ Hy Hk Hs HF) as (cuts & EC & Hnb & LC & HC & HM).
  pose proof (dfx_averages kind nb cuts Hnb HC) as HA.
  eapply function_consistent; eauto. apply dfx_nil.
Qed.

Lemma Friedman_function_recovers : forall N fuel cvx tol y preds m bags ks bag,
  FriedmanME_fit N fuel (Callable sum_of_differences) y preds = Val m ->
  length (np_unique y) = 2%nat -> identifiable (mt_bins m) (mt_classes m) (mt_T m) -> 0 < tol <= 1/100 ->
  let samples := class_samples (np_unique y) (y_ext y (length preds)) preds in
  copies_of ks samples bag -> bag <> [] ->
  exists p, snd (matching_predict N cvx (Callable sum_of_differences) tol
                   (after_predictions N cvx (Callable sum_of_differences) tol m bags) bag) = Val [1 - p; p] /\
    Rabs (p - nth 1 (copies_prevalences ks samples bag) 0) <= 2 * tol.
Proof.
  intros N fuel cvx tol y preds m bags ks bag HF H2 HI Ht samples HK Hb. unfold FriedmanME_fit in HF.
  set (prevs := map (fun c => INR (zcount c y) / INR (length y)) (np_unique y)) in HF.
  assert (LP : length prevs = length (np_unique y)) by (unfold prevs; now rewrite map_length).
  pose proof (friedman_averages prevs) as HA. rewrite LP in HA.
  eapply function_consistent; eauto. apply friedman_nil.
Qed.

(** ** The normal cut points *)

Lemma sum_by_class : forall (h : Z -> R -> R) classes (y : list Z) (x : list R), NoDup classes ->
  (forall c, In c y -> In c classes) -> length y = length x ->
  rsum (map (fun yx => h (fst yx) (snd yx)) (combine y x)) =
  rsum (map (fun c => rsum (map (h c) (select c y x))) classes).
Proof.
  intros h classes y x ND. revert x. induction y as [|a y IH]; intros [|v x] HC L; try discriminate.
  - unfold select. cbn. clear. induction classes as [|c l IH]; [reflexivity|]. cbn. rewrite <- IH. lra.
  - cbn [combine map fst snd]. cbn [rsum fold_right]. fold (rsum (map (fun yx => h (fst yx) (snd yx)) (combine y x))).
    rewrite IH by (auto; intros; apply HC; now right || (simpl in L; lia)).
    assert (Ha : In a classes) by (apply HC; now left).
    assert (HS : forall c, rsum (map (h c) (select c (a :: y) (v :: x))) =
      (if Z.eqb a c then h c v else 0) + rsum (map (h c) (select c y x))).
    { intros c. unfold select. cbn [combine filter fst]. destruct (Z.eqb a c); cbn; lra. }
    rewrite (map_ext _ _ HS). clear HS IH HC L.
    induction classes as [|c l IH]; [destruct Ha|]. inversion ND as [|? ? NI ND']; subst. cbn [map rsum fold_right].
    fold (rsum (map (fun c => rsum (map (h c) (select c y x))) l)).
    fold (rsum (map (fun c => (if Z.eqb a c then h c v else 0) + rsum (map (h c) (select c y x))) l)).
    destruct Ha as [->|Ha].
    + rewrite Z.eqb_refl.
      assert (E : rsum (map (fun c => (if Z.eqb a c then h c v else 0) + rsum (map (h c) (select c y x))) l) =
                  rsum (map (fun c => rsum (map (h c) (select c y x))) l)).
      { f_equal. apply map_ext_in. intros c Hc. destruct (Z.eqb_spec a c); [subst; contradiction|]. lra. }
      rewrite E. lra.
    + rewrite <- (IH ND' Ha). destruct (Z.eqb_spec a c); [subst; contradiction|]. lra.
Qed.

Lemma normal_weighted : forall (g : R -> R) (y : list Z) (x : list R), y <> [] -> length y = length x ->
  weighted_mean (map g x) (class_weights (length x) (np_unique y) y) = class_average g (np_unique y) y x.
Proof.
  intros g y x Hy L. set (classes := np_unique y).
  assert (ND : NoDup classes) by apply np_unique_NoDup.
  assert (HI : forall c, In c y <-> In c classes) by (intros; unfold classes; now rewrite np_unique_in).
  assert (Lx : 0 < INR (length x)) by (rewrite <- L; destruct y; [congruence|apply lt_0_INR; simpl; lia]).
  set (w := fun c => INR (length x) / INR (zcount c y)).
  assert (EW : class_weights (length x) classes y = map w y).
  { unfold class_weights. apply map_ext_in. intros c Hc.
    replace (existsb (Z.eqb c) classes) with true; [reflexivity|]. symmetry. apply existsb_exists.
    exists c. split; [now apply HI|apply Z.eqb_refl]. }
  assert (SUM : forall gg, rsum (vmap2 Rmult (map gg x) (map w y)) =
    INR (length x) * rsum (map (fun c => average (map gg (select c y x))) classes)).
  { intros gg. rewrite weighted_combine by auto.
    rewrite (sum_by_class (fun c v => gg v * w c) classes y x ND) by (auto; intros; now apply HI).
    rewrite <- rsum_map_scal. f_equal. apply map_ext_in. intros c Hc. apply HI in Hc.
    unfold average. rewrite map_length, select_length by auto.
    assert (0 < INR (zcount c y)).
    { apply lt_0_INR. unfold zcount. now apply (count_occ_In Z.eq_dec). }
    unfold w. replace (map (fun v => gg v * (INR (length x) / INR (zcount c y))) (select c y x))
      with (map (fun v => (INR (length x) / INR (zcount c y)) * gg v) (select c y x))
      by (apply map_ext; intros; ring).
    rewrite (rsum_map_scal (INR (length x) / INR (zcount c y)) gg). field. lra. }
  unfold weighted_mean. rewrite EW.
  assert (ST : rsum (map w y) = INR (length x) * INR (length classes)).
  { assert (E : map w y = vmap2 Rmult (map (fun _ => 1) x) (map w y)).
    { assert (G : forall (ww : Z -> R) (y0 : list Z) (x0 : list R), length y0 = length x0 ->
        map ww y0 = vmap2 Rmult (map (fun _ => 1) x0) (map ww y0)).
      { intros ww. induction y0 as [|a0 y0 IH]; intros [|v x0] L0; try discriminate; [reflexivity|].
        cbn [map vmap2]. rewrite <- IH by (simpl in L0; lia). f_equal. ring. }
      now apply G. }
    rewrite E, SUM. f_equal.
    rewrite (map_ext_in _ (fun _ => 1)); [rewrite rsum_map_const; ring|]. intros c Hc. apply HI in Hc.
    unfold average. rewrite rsum_map_const, map_length, select_length by auto.
    assert (0 < INR (zcount c y)).
    { apply lt_0_INR. unfold zcount. now apply (count_occ_In Z.eq_dec). }
    field. lra. }
  rewrite SUM, ST. unfold class_average, average at 2. rewrite map_length.
  assert (0 < INR (length classes)).
  { apply lt_0_INR. pose proof (np_unique_nonempty y Hy) as NE. fold classes in NE.
    destruct classes; [congruence|simpl; lia]. }
  fold average. field. lra.
Qed.

Lemma normal_cuts : forall ppf x y n range, y <> [] -> length y = length x -> (0 < n)%nat ->
  let mu := class_average (fun v => v) (np_unique y) y x in
  compute_bincuts ppf x y (np_unique y) n Normal range =
  gaussian_cuts ppf n mu (sqrt (class_average (fun v => (v - mu) ^ 2) (np_unique y) y x)).
Proof.
  intros ppf x y n range Hy L Hn mu. unfold compute_bincuts. destruct n as [|n]; [lia|].
  rewrite (proj2 (Nat.eqb_eq _ _) L). cbn [negb]. destruct x as [|v x]; [destruct y; [congruence|discriminate]|].
  cbv zeta.
  assert (E : weighted_mean (v :: x) (class_weights (length (v :: x)) (np_unique y) y) = mu).
  { unfold mu. rewrite <- normal_weighted by auto. now rewrite map_id. }
  rewrite E. now rewrite normal_weighted by auto.
Qed.

Lemma rmean_average : forall l, rmean l = average l.
Proof. reflexivity. Qed.

Lemma binormal_cuts : forall ppf x y n range, length (np_unique y) = 2%nat -> length y = length x -> (0 < n)%nat ->
  let class_std c := sqrt (average (map (fun v => (v - average (select c y x)) ^ 2) (select c y x))) in
  compute_bincuts ppf x y (np_unique y) n Binormal range =
  gaussian_cuts ppf n (class_average (fun v => v) (np_unique y) y x) (average (map class_std (np_unique y))).
Proof.
  intros ppf x y n range H2 L Hn class_std. unfold compute_bincuts. destruct n as [|n]; [lia|].
  rewrite H2, L, !Nat.eqb_refl. cbn [negb]. cbv zeta.
  assert (E : existsb (fun l => Nat.eqb (length l) 0) (map (fun c => select c y x) (np_unique y)) = false).
  { apply Bool.not_true_is_false. intros E. apply existsb_exists in E. destruct E as (l & Hl & E).
    apply in_map_iff in Hl. destruct Hl as (c & <- & Hc). apply (proj1 (np_unique_in c y)) in Hc.
    rewrite select_length in E by auto. apply Nat.eqb_eq in E.
    apply (count_occ_In Z.eq_dec) in Hc. unfold zcount in E. lia. }
  rewrite E. unfold class_average, average at 1 3. rewrite !map_length, H2, !map_map.
  f_equal. f_equal. f_equal. apply map_ext. intros c. now rewrite map_id.
Qed.

(** ** Scores of PDFOrdinaly *)

Lemma first_positive_at : forall k r, (forall i, (i < k)%nat -> nth i r 0 <= 0) -> 0 < nth k r 0 ->
  first_positive r = Some k.
Proof.
  induction k as [|k IH]; intros r H0 Hk.
  - destruct r as [|x r]; cbn in *; [lra|]. destruct (Rlt_dec 0 x); [reflexivity|contradiction].
  - destruct r as [|x r]; cbn in Hk; [lra|]. cbn. pose proof (H0 O ltac:(lia)) as Hx. cbn in Hx.
    destruct (Rlt_dec 0 x); [lra|]. rewrite (IH r); [reflexivity| |exact Hk].
    intros i Hi. apply (H0 (S i)). lia.
Qed.

Lemma winner_value : forall n k r, (2 <= n)%nat -> (S k < n)%nat ->
  (forall i, (i < k)%nat -> nth i r 0 = 0) -> 0 < nth k r 0 ->
  pdfo_score WinnerNode n r = INR (S k) + nth (S k) r 0.
Proof.
  intros n k r Hn Hk H0 Hp. cbn [pdfo_score]. unfold winner_score.
  rewrite (first_positive_at k) by (auto; intros i Hi; rewrite H0 by auto; lra).
  destruct (Nat.eqb_spec k (n - 1)); [lia|]. rewrite Nat.add_1_r. reflexivity.
Qed.

Lemma winner_last : forall n r, (2 <= n)%nat ->
  (forall i, (i < n - 1)%nat -> nth i r 0 = 0) -> 0 < nth (n - 1) r 0 ->
  pdfo_score WinnerNode n r = INR (n - 1) + nth (n - 1) r 0.
Proof.
  intros n r Hn H0 Hp. cbn [pdfo_score]. unfold winner_score.
  rewrite (first_positive_at (n - 1)) by (auto; intros i Hi; rewrite H0 by auto; lra).
  rewrite Nat.eqb_refl. cbv zeta. now replace (n - 2 + 1)%nat with (n - 1)%nat by lia.
Qed.

Lemma PDFO_unknown : forall N fuel cvx n_bins meth y preds m bag t,
  PDFO_fit N fuel n_bins OtherOrdinalDistance meth y preds = Val m -> mt_represent m bag = Val t ->
  snd (PDFO_predict N cvx OtherOrdinalDistance m bag) = Val None.
Proof. intros N fuel cvx n_bins meth y preds m bag t _ Ht. unfold PDFO_predict. now rewrite Ht. Qed.

Lemma gaussian_values : forall ppf n mu std, (0 < n)%nat -> 0 < std ->
  exists cuts, gaussian_cuts ppf n mu std = Val cuts /\ length cuts = S n /\
    nth 0 cuts PosInf = NegInf /\ nth n cuts NegInf = PosInf /\
    forall i, (0 < i < n)%nat -> nth i cuts PosInf = Fin (mu + std * ppf (INR i / INR n)).
Proof.
  intros ppf n mu std Hn Hs. unfold gaussian_cuts. destruct n as [|n]; [lia|].
  destruct (Rlt_dec 0 std) as [_|]; [|contradiction].
  replace (S n - 1)%nat with n by lia.
  set (g := fun i : nat => Fin (std * ppf (INR i / INR (S n)) + mu)).
  assert (LM : length (map g (seq 1 n)) = n) by (now rewrite map_length, seq_length).
  eexists. split; [reflexivity|]. split; [cbn [length]; rewrite app_length, LM; simpl; lia|].
  split; [reflexivity|]. split.
  - cbn [nth]. rewrite app_nth2 by lia. now rewrite LM, Nat.sub_diag.
  - intros [|i] Hi; [lia|]. cbn [nth]. rewrite app_nth1 by lia.
    rewrite (nth_indep _ PosInf (g O)) by lia. rewrite map_nth, seq_nth by lia. unfold g.
    change (1 + i)%nat with (S i). f_equal. ring.
Qed.

Lemma normal_values : forall ppf x y n range, y <> [] -> length y = length x -> (0 < n)%nat ->
  let mu := class_average (fun v => v) (np_unique y) y x in
  let std := sqrt (class_average (fun v => (v - mu) ^ 2) (np_unique y) y x) in
  0 < std ->
  exists cuts, compute_bincuts ppf x y (np_unique y) n Normal range = Val cuts /\ length cuts = S n /\
    nth 0 cuts PosInf = NegInf /\ nth n cuts NegInf = PosInf /\
    forall i, (0 < i < n)%nat -> nth i cuts PosInf = Fin (mu + std * ppf (INR i / INR n)).
Proof. intros. rewrite normal_cuts by auto. now apply gaussian_values. Qed.

Lemma binormal_values : forall ppf x y n range, length (np_unique y) = 2%nat -> length y = length x -> (0 < n)%nat ->
  let mu := class_average (fun v => v) (np_unique y) y x in
  let class_std c := sqrt (average (map (fun v => (v - average (select c y x)) ^ 2) (select c y x))) in
  let std := average (map class_std (np_unique y)) in
  0 < std ->
  exists cuts, compute_bincuts ppf x y (np_unique y) n Binormal range = Val cuts /\ length cuts = S n /\
    nth 0 cuts PosInf = NegInf /\ nth n cuts NegInf = PosInf /\
    forall i, (0 < i < n)%nat -> nth i cuts PosInf = Fin (mu + std * ppf (INR i / INR n)).
Proof. intros. rewrite binormal_cuts by auto. now apply gaussian_values. Qed.

Lemma neighbours_agree : forall n k r, (2 <= n)%nat -> (k < n)%nat -> distribution_over n r ->
  on_two_neighbours k r ->
  pdfo_score WinnerNode n r = sumn n (fun i => nth i r 0 * INR (i + 1)) /\
  pdfo_score FullProbabilistic n r = sumn n (fun i => nth i r 0 * INR (i + 1)).
Proof.
  intros n k r Hn Hk D T. split; [|reflexivity]. now apply (winner_expected n k).
Qed.
