(** * Proofs about DFy, DFX, FriedmanME, PDFOrdinaly and ACOrdinal. *)

From Coq Require Import Reals List ZArith Lia Lra Bool Arith Permutation.
From Verif Require Import Num Spec L_Num M_Baselines L_Baselines M_Metrics L_Metrics M_Bags L_Bags M_Search
  M_Optim Spec_Optim L_Optim4 L_Optim5 M_Match Spec_Match L_Match L_Match2 L_Match3.
Import ListNotations.
Open Scope R_scope.

(** ** Cuts of a successful fit *)

Lemma df_blocks_inv : forall cuts rows blocks, df_blocks cuts rows = Val blocks ->
  rows <> [] /\ Forall ascending_edges cuts.
Proof.
  intros cuts rows blocks H. unfold df_blocks in H. destruct rows as [|r rows]; [discriminate|].
  split; [discriminate|]. destruct (collect _) as [hs| |] eqn:E; try discriminate.
  apply Forall_forall. intros c Hc. apply (In_nth _ _ []) in Hc. destruct Hc as (b & Hb & <-).
  rewrite (map_combine_seq _ []) in E. cbn [fst snd] in E.
  destruct (collect_forall _ _ _ E b) as (h & Hh); [apply in_seq; lia|].
  eapply histogram_ascending; eauto.
Qed.

Lemma dfy_represent_inv : forall kind cuts rows t, dfy_represent kind cuts rows = Val t ->
  rows <> [] /\ Forall ascending_edges cuts.
Proof.
  intros kind cuts rows t H. unfold dfy_represent in H.
  destruct (df_blocks cuts rows) eqn:E; try discriminate. eapply df_blocks_inv; eauto.
Qed.

Lemma dfx_represent_inv : forall kind cuts rows t, dfx_represent kind cuts rows = Val t ->
  rows <> [] /\ Forall ascending_edges cuts.
Proof.
  intros kind cuts rows t H. unfold dfx_represent in H.
  destruct (df_blocks cuts rows) eqn:E; try discriminate. eapply df_blocks_inv; eauto.
Qed.

Lemma fit_matching_some : forall {A} N fuel crit d (rep : list A -> out (list R)) classes ye rows m,
  classes <> [] -> fit_matching N fuel crit d rep classes ye rows = Val m ->
  exists s t, rep s = Val t.
Proof.
  intros A N fuel crit d rep classes ye rows m Hc H. unfold fit_matching in H.
  destruct (Nat.eqb _ _); [|discriminate]. destruct (collect _) eqn:E; try discriminate.
  destruct classes as [|c classes]; [congruence|].
  destruct (collect_forall _ _ _ E c) as (t & Ht); [now left|]. eauto.
Qed.

Lemma np_unique_nonempty : forall y, y <> [] -> np_unique y <> [].
Proof.
  intros [|a y] H; [congruence|]. intros E. assert (In a (np_unique (a :: y))).
  { apply np_unique_in. now left. }
  rewrite E in H0. destruct H0.
Qed.

Lemma shaped_all : forall {A} (f : A -> out (list edge)) l cuts nb,
  (forall a v, f a = Val v -> shaped nb v) -> collect (map f l) = Val cuts ->
  Forall (shaped nb) cuts /\ length cuts = length l.
Proof.
  intros A f l cuts nb H E. apply collect_inv in E. split.
  - apply Forall_forall. intros c Hc. assert (I : In (Val c) (map f l)) by (rewrite E; now apply in_map).
    apply in_map_iff in I. destruct I as (a & Ea & _). eapply H; eauto.
  - apply (f_equal (@length _)) in E. now rewrite !map_length in E.
Qed.

Lemma covering_all : forall nb cuts, Forall (shaped nb) cuts -> Forall ascending_edges cuts ->
  Forall (covering_cuts nb) cuts.
Proof.
  intros nb cuts H1 H2. rewrite Forall_forall in *. intros c Hc. apply shaped_covering; auto.
Qed.

Lemma compute_bincuts_pos : forall ppf x y classes n strat range cuts,
  compute_bincuts ppf x y classes n strat range = Val cuts -> (0 < n)%nat.
Proof. intros. unfold compute_bincuts in H. destruct n; [discriminate|lia]. Qed.

(** Facts about a successful fit of DFy. *)
Lemma DFy_fit_inv : forall ppf N fuel kind nb strat crit y preds m, y <> [] ->
  strat = EqualWidth \/ strat = EqualCount ->
  DFy_fit ppf N fuel kind nb strat crit y preds = Val m ->
  exists cuts, DFy_cuts ppf nb strat y preds = Val cuts /\ (0 < nb)%nat /\
    length cuts = n_descriptors (length (np_unique y)) /\ Forall (covering_cuts nb) cuts /\
    fit_matching N fuel crit (nb * length cuts) (dfy_represent kind cuts) (np_unique y)
      (y_ext y (length preds)) preds = Val m.
Proof.
  intros ppf N fuel kind nb strat crit y preds m Hy Hs H. unfold DFy_fit in H.
  destruct (DFy_cuts ppf nb strat y preds) as [cuts| |] eqn:E; try discriminate. cbn [obind] in H.
  exists cuts. split; [reflexivity|].
  unfold DFy_cuts in E.
  destruct (shaped_all _ _ _ nb (fun a v Hv => simple_shape _ _ _ _ _ _ _ _ Hs Hv) E) as [S L].
  rewrite seq_length in L.
  assert (Hc : np_unique y <> []) by (apply np_unique_nonempty; auto).
  destruct (fit_matching_some _ _ _ _ _ _ _ _ _ Hc H) as (s & t & Ht).
  apply dfy_represent_inv in Ht. destruct Ht as [_ HA].
  split.
  - assert (D : (0 < n_descriptors (length (np_unique y)))%nat).
    { unfold n_descriptors. destruct (np_unique y) as [|a [|b [|c l]]]; simpl; [congruence|lia|lia|lia]. }
    destruct (collect_forall _ _ _ E O) as (v & Hv); [apply in_seq; lia|].
    eapply compute_bincuts_pos; eauto.
  - split; [auto|]. split; [apply covering_all; auto|exact H].
Qed.

Lemma DFX_fit_inv : forall ppf N fuel kind nb strat crit y k X m, y <> [] -> (0 < k)%nat ->
  strat = EqualWidth \/ strat = EqualCount ->
  DFX_fit ppf N fuel kind nb strat crit y k X = Val m ->
  exists cuts, DFX_cuts ppf nb strat y k X = Val cuts /\ (0 < nb)%nat /\
    length cuts = k /\ Forall (covering_cuts nb) cuts /\
    fit_matching N fuel crit (nb * length cuts) (dfx_represent kind cuts) (np_unique y) y X = Val m.
Proof.
  intros ppf N fuel kind nb strat crit y k X m Hy Hk Hs H. unfold DFX_fit in H.
  destruct (DFX_cuts ppf nb strat y k X) as [cuts| |] eqn:E; try discriminate. cbn [obind] in H.
  exists cuts. split; [reflexivity|].
  unfold DFX_cuts in E.
  destruct (shaped_all _ _ _ nb (fun a v Hv => simple_shape _ _ _ _ _ _ _ _ Hs Hv) E) as [S L].
  rewrite seq_length in L.
  assert (Hc : np_unique y <> []) by (apply np_unique_nonempty; auto).
  destruct (fit_matching_some _ _ _ _ _ _ _ _ _ Hc H) as (s & t & Ht).
  apply dfx_represent_inv in Ht. destruct Ht as [_ HA].
  split.
  - destruct (collect_forall _ _ _ E O) as (v & Hv); [apply in_seq; lia|].
    eapply compute_bincuts_pos; eauto.
  - split; [auto|]. split; [apply covering_all; auto|exact H].
Qed.

(** ** Fractions *)

Lemma how_many_filter : forall {A} (P : A -> Prop) (f : A -> bool) l, (forall x, f x = true <-> P x) ->
  how_many P l (length (filter f l)).
Proof.
  intros A P f l H. induction l as [|a l IH]; [constructor|].
  simpl. destruct (f a) eqn:E.
  - simpl. apply hm_yes; [now apply H|exact IH].
  - apply hm_no; [|exact IH]. intros HP. apply H in HP. congruence.
Qed.

Lemma fraction_in_mean : forall (P : R -> Prop) (f : R -> bool) b rows, (forall x, f x = true <-> P x) ->
  fraction_in P (col b rows) (mean_of (fun row => ind (f (nth b row 0))) rows).
Proof.
  intros P f b rows H. exists (length (filter f (col b rows))). split; [now apply how_many_filter|].
  rewrite count_mean. unfold mean_of, col. rewrite map_map, !map_length. reflexivity.
Qed.

Lemma histogram_in_bin : forall x edges h, histogram x edges = Val h ->
  length h = (length edges - 1)%nat /\
  forall i, (S i < length edges)%nat -> how_many (in_bin edges i) x (nth i h 0%nat).
Proof.
  intros x edges h H. pose proof (histogram_ascending _ _ _ H) as HA.
  rewrite histogram_counts in H by auto. inversion H. split; [apply tabulate_length|].
  intros i Hi. rewrite tabulate_nth by lia. apply how_many_filter. intros; apply in_binb_spec.
Qed.

Lemma distribution_tabulate : forall n (f : nat -> R), (forall i, (i < n)%nat -> 0 <= f i) ->
  sumn n f = 1 -> distribution (tabulate n f).
Proof.
  intros n f H S. split; [|now rewrite rsum_tabulate].
  apply Forall_forall. intros v Hv. unfold tabulate in Hv. apply in_map_iff in Hv.
  destruct Hv as (i & <- & Hi). apply in_seq in Hi. apply H. lia.
Qed.

Lemma ind_nonneg : forall b, 0 <= ind b.
Proof. intros []; simpl; lra. Qed.

(** Averages of histogram features over a sample: one block is a distribution. *)
Lemma block_distribution : forall nb cuts b s, (0 < nb)%nat -> (b < length cuts)%nat ->
  Forall (covering_cuts nb) cuts -> s <> [] ->
  distribution (tabulate nb (fun k => mean_of (bin_feature cuts b k) s)).
Proof.
  intros nb cuts b s Hnb Hb HC Hs. apply distribution_tabulate.
  - intros k Hk. apply mean_of_nonneg. intros row. apply ind_nonneg.
  - rewrite <- mean_of_sumn. rewrite (mean_of_ext _ (fun _ => 1)); [now apply mean_of_const|].
    intros row _. apply sum_bin_feature; auto. rewrite Forall_forall in HC. apply HC, nth_In. auto.
Qed.

Lemma bin_fraction : forall cuts b k s,
  fraction_in (in_bin (nth b cuts []) k) (col b s) (mean_of (bin_feature cuts b k) s).
Proof.
  intros cuts b k s. unfold bin_feature.
  apply (fraction_in_mean (in_bin (nth b cuts []) k) (in_binb (nth b cuts []) k)).
  intros. apply in_binb_spec.
Qed.

(** The cumulative feature of a block: the value is below the end of the bin. *)
Lemma before_spec : forall nb cuts k x, covering_cuts nb cuts -> (k < nb)%nat ->
  before cuts (S k) x = true <-> value_below x (nth (S k) cuts PosInf).
Proof.
  intros nb cuts k x (L & _ & HN & _) Hk. unfold before. rewrite L.
  destruct (Nat.eqb_spec (S (S k)) (S nb)) as [E|E]; [|apply below_spec].
  assert (S k = nb) by lia. subst nb. rewrite (nth_indep cuts PosInf NegInf) by lia. rewrite HN.
  simpl. tauto.
Qed.

Lemma cumulative_fraction : forall nb cuts b k s, (k < nb)%nat -> (b < length cuts)%nat ->
  Forall (covering_cuts nb) cuts ->
  fraction_in (fun x => value_below x (nth (S k) (nth b cuts []) PosInf)) (col b s)
    (mean_of (fun row => sumn (S k) (fun i => bin_feature cuts b i row)) s).
Proof.
  intros nb cuts b k s Hk Hb HC.
  assert (C : covering_cuts nb (nth b cuts [])) by (rewrite Forall_forall in HC; apply HC, nth_In; auto).
  rewrite (mean_of_ext _ (fun row => ind (before (nth b cuts []) (S k) (nth b row 0)))).
  - apply fraction_in_mean. intros x. now apply (before_spec nb).
  - intros row _. unfold bin_feature. destruct C as (L & H0 & HN & HA).
    apply sum_bins; [auto|lia|]. rewrite H0. reflexivity.
Qed.

(** ** Blocks of the fitted columns and of bags *)

Lemma dfy_nil : forall kind cuts v, dfy_represent kind cuts [] <> Val v.
Proof. intros kind cuts v H. discriminate. Qed.
Lemma dfx_nil : forall kind cuts v, dfx_represent kind cuts [] <> Val v.
Proof. intros kind cuts v H. discriminate. Qed.

Definition pdf_phi (nb : nat) (cuts : list (list edge)) (r : nat) : list R -> R :=
  bin_feature cuts (r / nb) (r mod nb).
Definition cdfx_phi (nb : nat) (cuts : list (list edge)) (r : nat) (row : list R) : R :=
  sumn (S (r mod nb)) (fun k => bin_feature cuts (r / nb) k row).
Definition cdfy_phi (nb : nat) (cuts : list (list edge)) (r : nat) (row : list R) : R :=
  sumn (S r) (fun i => bin_feature cuts (i / nb) (i mod nb) row).

Definition dfy_phi (kind : representation) (nb : nat) (cuts : list (list edge)) : nat -> list R -> R :=
  match kind with PDF => pdf_phi nb cuts | CDF => cdfy_phi nb cuts end.
Definition dfx_phi (kind : representation) (nb : nat) (cuts : list (list edge)) : nat -> list R -> R :=
  match kind with PDF => pdf_phi nb cuts | CDF => cdfx_phi nb cuts end.

Lemma dfy_averages : forall kind nb cuts, (0 < nb)%nat -> Forall (covering_cuts nb) cuts ->
  averages (nb * length cuts) (dfy_phi kind nb cuts) (dfy_represent kind cuts).
Proof.
  intros [|] nb cuts Hnb HC; [apply pdf_averages|apply dfy_cdf_averages]; auto using covering_good.
Qed.

Lemma dfx_averages : forall kind nb cuts, (0 < nb)%nat -> Forall (covering_cuts nb) cuts ->
  averages (nb * length cuts) (dfx_phi kind nb cuts) (dfx_represent kind cuts).
Proof.
  intros [|] nb cuts Hnb HC; [apply pdf_averages|apply dfx_cdf_averages]; auto using covering_good.
Qed.

Lemma block_index : forall nb nd b k, (k < nb)%nat -> (b < nd)%nat -> (b * nb + k < nb * nd)%nat.
Proof. intros. nia. Qed.

Lemma pdf_phi_block : forall nb cuts b k, (k < nb)%nat ->
  pdf_phi nb cuts (b * nb + k) = bin_feature cuts b k.
Proof. intros nb cuts b k Hk. unfold pdf_phi. destruct (div_block nb b k Hk) as [-> ->]. reflexivity. Qed.

Lemma cdfx_phi_block : forall nb cuts b k row, (k < nb)%nat ->
  cdfx_phi nb cuts (b * nb + k) row = sumn (S k) (fun i => bin_feature cuts b i row).
Proof. intros nb cuts b k row Hk. unfold cdfx_phi. destruct (div_block nb b k Hk) as [-> ->]. reflexivity. Qed.

Lemma cdfy_phi_block : forall nb cuts b k row, (k < nb)%nat -> (b < length cuts)%nat ->
  Forall (covering_cuts nb) cuts ->
  cdfy_phi nb cuts (b * nb + k) row = INR b + sumn (S k) (fun i => bin_feature cuts b i row).
Proof. intros. now apply dfy_cdf_feature. Qed.

Lemma class_samples_nth : forall {A} classes ye (rows : list A) c, (c < length classes)%nat ->
  nth c (class_samples classes ye rows) [] = select (nth c classes 0%Z) ye rows.
Proof.
  intros A classes ye rows c Hc. unfold class_samples.
  rewrite (nth_indep _ [] (select 0%Z ye rows)) by (now rewrite map_length).
  apply (map_nth (fun c => select c ye rows)).
Qed.

Lemma class_samples_length : forall {A} classes ye (rows : list A),
  length (class_samples classes ye rows) = length classes.
Proof. intros. apply map_length. Qed.

(** What a fit leaves, for any of the representations. *)
Lemma fitted_facts : forall {A} N fuel crit d phi (rep : list A -> out (list R)) classes ye rows m,
  averages d phi rep -> (forall v, rep [] <> Val v) ->
  fit_matching N fuel crit d rep classes ye rows = Val m ->
  mt_bins m = d /\ mt_classes m = length classes /\ mt_represent m = rep /\
  (forall c, (c < length classes)%nat -> select (nth c classes 0%Z) ye rows <> []) /\
  (forall r c, (r < d)%nat -> (c < length classes)%nat ->
     mt_T m r c = mean_of (phi r) (select (nth c classes 0%Z) ye rows)).
Proof.
  intros A N fuel crit d phi rep classes ye rows m HA H0 H.
  destruct (fit_matching_inv _ _ _ _ _ _ _ _ _ _ HA H0 H) as (-> & HN & L).
  split; [reflexivity|]. split; [unfold columns_of; simpl; rewrite map_length; apply class_samples_length|].
  split; [reflexivity|]. split.
  - intros c Hc. rewrite <- class_samples_nth by auto. rewrite Forall_forall in HN. apply HN, nth_In.
    now rewrite class_samples_length.
  - intros r c Hr Hc. rewrite fitted_T by (rewrite ?class_samples_length; auto).
    now rewrite class_samples_nth.
Qed.

(** ** Consistency of each quantifier *)

Lemma pdf_mass : forall nb cuts row, (0 < nb)%nat -> Forall (covering_cuts nb) cuts ->
  sumn (nb * length cuts) (fun r => pdf_phi nb cuts r row) = INR (length cuts).
Proof.
  intros nb cuts row Hnb HC. rewrite Nat.mul_comm, sumn_blocks.
  rewrite (sumn_ext _ _ (fun _ => 1)); [rewrite sumn_const; ring|].
  intros b Hb. rewrite (sumn_ext nb _ (fun k => bin_feature cuts b k row)).
  - apply sum_bin_feature; auto. rewrite Forall_forall in HC. apply HC, nth_In. auto.
  - intros k Hk. now rewrite pdf_phi_block.
Qed.

Lemma equal_mass_intro : forall {A} N fuel crit d (phi : nat -> A -> R) (rep : list A -> out (list R)) (samples : list (list A)) c,
  Forall (fun s => s <> []) samples -> (forall r x, 0 <= phi r x) ->
  (forall s x, In s samples -> In x s -> sumn d (fun r => phi r x) = c) ->
  equal_mass (new_matcher N fuel crit d rep (columns_of d phi samples)).
Proof.
  intros A N fuel crit d phi rep samples c HS Hp Hc. split.
  - intros r j Hr Hj. rewrite fitted_classes in Hj. rewrite fitted_T by auto. now apply mean_of_nonneg.
  - exists c. intros j Hj. rewrite fitted_classes in Hj.
    apply (mass_of_features N fuel crit d phi rep samples HS d c); auto.
Qed.

(** The weighted sum of the rows of [T] that is 1 for every class. *)
Lemma unit_row : forall {A} N fuel crit d (phi : nat -> A -> R) (rep : list A -> out (list R)) (samples : list (list A)) (w : nat -> R),
  Forall (fun s => s <> []) samples ->
  (forall s x, In s samples -> In x s -> sumn d (fun r => w r * phi r x) = 1) ->
  let m := new_matcher N fuel crit d rep (columns_of d phi samples) in
  identifiable d (length samples) (mt_T m) -> independent_columns d (length samples) (mt_T m).
Proof.
  intros A N fuel crit d phi rep samples w HS Hw m HI. apply (identifiable_independent d _ _ w HI).
  intros j Hj. assert (I : In (nth j samples []) samples) by (now apply nth_In).
  rewrite (sumn_ext d _ (fun r => mean_of (fun x => w r * phi r x) (nth j samples []))).
  - rewrite <- (mean_of_sumn d (fun r x => w r * phi r x)).
    rewrite (mean_of_ext _ (fun _ => 1)) by (intros; eapply Hw; eauto).
    apply mean_of_const. rewrite Forall_forall in HS. now apply HS.
  - intros r Hr. unfold m. rewrite fitted_T by auto. unfold mean_of.
    rewrite rsum_map_scal. unfold Rdiv. ring.
Qed.

Lemma sumn_delta : forall n i (f : nat -> R), (i < n)%nat ->
  sumn n (fun r => (if Nat.eqb r i then 1 else 0) * f r) = f i.
Proof.
  intros n i f Hi. rewrite (sumn_single n i).
  - rewrite Nat.eqb_refl. ring.
  - auto.
  - intros j Hj Hne. apply Nat.eqb_neq in Hne. rewrite Hne. ring.
Qed.

(** The last cumulative value of the first block is 1. *)
Lemma last_cumulative : forall kind nb cuts row, (0 < nb)%nat -> (0 < length cuts)%nat ->
  Forall (covering_cuts nb) cuts ->
  match kind with
  | PDF => sumn nb (fun r => pdf_phi nb cuts r row) = 1
  | CDF => cdfx_phi nb cuts (nb - 1) row = 1 /\ cdfy_phi nb cuts (nb - 1) row = 1
  end.
Proof.
  intros kind nb cuts row Hnb Hc HC.
  assert (C0 : covering_cuts nb (nth 0 cuts [])) by (rewrite Forall_forall in HC; apply HC, nth_In; auto).
  pose proof (sum_bin_feature nb cuts 0 row Hnb C0) as S.
  destruct kind.
  - rewrite <- S. apply sumn_ext. intros k Hk. now rewrite <- (pdf_phi_block nb cuts 0 k Hk).
  - replace (nb - 1)%nat with (0 * nb + (nb - 1))%nat by lia.
    rewrite cdfx_phi_block, cdfy_phi_block by (auto; lia).
    replace (Datatypes.S (nb - 1)) with nb by lia. rewrite S. simpl. split; lra.
Qed.

Lemma df_unit_weights : forall kind nb cuts (phi : nat -> list R -> R), (0 < nb)%nat -> (0 < length cuts)%nat ->
  Forall (covering_cuts nb) cuts ->
  phi = dfy_phi kind nb cuts \/ phi = dfx_phi kind nb cuts ->
  exists w : nat -> R, forall row, sumn (nb * length cuts) (fun r => w r * phi r row) = 1.
Proof.
  intros kind nb cuts phi Hnb Hc HC Hphi. destruct kind.
  - exists (fun r => if Nat.ltb r nb then 1 else 0). intros row.
    assert (phi = pdf_phi nb cuts) by (destruct Hphi; auto). subst phi.
    replace (nb * length cuts)%nat with (nb + nb * (length cuts - 1))%nat by nia.
    rewrite sumn_split. rewrite (sumn_ext nb _ (fun r => pdf_phi nb cuts r row)).
    + rewrite (last_cumulative PDF) by auto. rewrite sumn_0; [ring|].
      intros i Hi. replace (Nat.ltb (nb + i) nb) with false; [ring|]. symmetry. apply Nat.ltb_ge. lia.
    + intros r Hr. apply Nat.ltb_lt in Hr. rewrite Hr. ring.
  - exists (fun r => if Nat.eqb r (nb - 1) then 1 else 0). intros row.
    rewrite sumn_delta by nia.
    destruct (last_cumulative CDF nb cuts row Hnb Hc HC) as [E1 E2].
    destruct Hphi as [->| ->]; auto.
Qed.

Lemma dfy_phi_nonneg : forall kind nb cuts r row, 0 <= dfy_phi kind nb cuts r row.
Proof.
  intros [|] nb cuts r row; simpl; [apply ind_nonneg|].
  apply sumn_nonneg. intros. apply ind_nonneg.
Qed.

Lemma dfx_phi_nonneg : forall kind nb cuts r row, 0 <= dfx_phi kind nb cuts r row.
Proof.
  intros [|] nb cuts r row; simpl; [apply ind_nonneg|].
  apply sumn_nonneg. intros. apply ind_nonneg.
Qed.

Lemma DFy_consistent : forall ppf N fuel cvx kind nb strat dist tol y preds m bags ks bag,
  exact_cvx cvx -> exact_qp (solve_qp N) ->
  dist <> OtherDistance -> (dist = HD -> kind = PDF) ->
  y <> [] -> strat = EqualWidth \/ strat = EqualCount ->
  DFy_fit ppf N fuel kind nb strat (Named dist) y preds = Val m ->
  identifiable (mt_bins m) (mt_classes m) (mt_T m) ->
  let samples := class_samples (np_unique y) (y_ext y (length preds)) preds in
  copies_of ks samples bag -> bag <> [] ->
  only_result N cvx (snd (matching_predict N cvx (Named dist) tol
         (after_predictions N cvx (Named dist) tol m bags) bag)) (copies_prevalences ks samples bag).
Proof.
  intros ppf N fuel cvx kind nb strat dist tol y preds m bags ks bag HX HQ Hd Hk Hy Hs HF HI
    samples HK Hb.
  destruct (DFy_fit_inv _ _ _ _ _ _ _ _ _ _ Hy Hs HF) as (cuts & EC & Hnb & LC & HC & HM).
  pose proof (dfy_averages kind nb cuts Hnb HC) as HA.
  destruct (fit_matching_inv _ _ _ _ _ _ _ _ _ _ HA (dfy_nil kind cuts) HM) as (-> & HN & L).
  fold samples in HN, HI |- *.
  assert (Lc : (0 < length cuts)%nat).
  { rewrite LC. pose proof (np_unique_nonempty y Hy). unfold n_descriptors.
    destruct (np_unique y) as [|a [|b [|c l]]]; simpl; [congruence|lia|lia|lia]. }
  rewrite fitted_classes in HI. change (mt_bins _) with (nb * length cuts)%nat in HI at 1.
  eapply (matching_recovers N fuel cvx dist tol); eauto using dfy_phi_nonneg.
  - intros E. rewrite (Hk E). apply (equal_mass_intro _ _ _ _ _ _ _ (INR (length cuts))); auto.
    + intros r x. apply ind_nonneg.
    + intros s x _ _. apply pdf_mass; auto.
  - intros _. destruct (df_unit_weights kind nb cuts (dfy_phi kind nb cuts) Hnb Lc HC (or_introl eq_refl)) as (w & Hw).
    apply (unit_row N fuel (Named dist) _ _ (dfy_represent kind cuts) _ w); auto.
Qed.

Lemma DFX_consistent : forall ppf N fuel cvx kind nb strat dist tol y k X m bags ks bag,
  exact_cvx cvx -> exact_qp (solve_qp N) ->
  dist <> OtherDistance -> (dist = HD -> kind = PDF) ->
  y <> [] -> (0 < k)%nat -> strat = EqualWidth \/ strat = EqualCount ->
  DFX_fit ppf N fuel kind nb strat (Named dist) y k X = Val m ->
  identifiable (mt_bins m) (mt_classes m) (mt_T m) ->
  let samples := class_samples (np_unique y) y X in
  copies_of ks samples bag -> bag <> [] ->
  only_result N cvx (snd (matching_predict N cvx (Named dist) tol
         (after_predictions N cvx (Named dist) tol m bags) bag)) (copies_prevalences ks samples bag).
Proof.
  intros ppf N fuel cvx kind nb strat dist tol y k X m bags ks bag HX HQ Hd Hk Hy Hk0 Hs HF HI
    samples HK Hb.
  destruct (DFX_fit_inv _ _ _ _ _ _ _ _ _ _ _ Hy Hk0 Hs HF) as (cuts & EC & Hnb & LC & HC & HM).
  pose proof (dfx_averages kind nb cuts Hnb HC) as HA.
  destruct (fit_matching_inv _ _ _ _ _ _ _ _ _ _ HA (dfx_nil kind cuts) HM) as (-> & HN & L).
  fold samples in HN, HI |- *.
  assert (Lc : (0 < length cuts)%nat) by lia.
  rewrite fitted_classes in HI. change (mt_bins _) with (nb * length cuts)%nat in HI at 1.
  eapply (matching_recovers N fuel cvx dist tol); eauto using dfx_phi_nonneg.
  - intros E. rewrite (Hk E). apply (equal_mass_intro _ _ _ _ _ _ _ (INR (length cuts))); auto.
    + intros r x. apply ind_nonneg.
    + intros s x _ _. apply pdf_mass; auto.
  - intros _. destruct (df_unit_weights kind nb cuts (dfx_phi kind nb cuts) Hnb Lc HC (or_intror eq_refl)) as (w & Hw).
    apply (unit_row N fuel (Named dist) _ _ (dfx_represent kind cuts) _ w); auto.
Qed.

Lemma friedman_nil : forall prevs v, friedman_represent prevs [] <> Val v.
Proof. intros prevs v H. discriminate. Qed.

Lemma Friedman_consistent : forall N fuel cvx dist tol y preds m bags ks bag,
  exact_cvx cvx -> exact_qp (solve_qp N) -> dist = L1 \/ dist = L2 ->
  FriedmanME_fit N fuel (Named dist) y preds = Val m ->
  independent_columns (mt_bins m) (mt_classes m) (mt_T m) \/
    (dist = L1 /\ identifiable (mt_bins m) (mt_classes m) (mt_T m)) ->
  let samples := class_samples (np_unique y) (y_ext y (length preds)) preds in
  copies_of ks samples bag -> bag <> [] ->
  only_result N cvx (snd (matching_predict N cvx (Named dist) tol
         (after_predictions N cvx (Named dist) tol m bags) bag)) (copies_prevalences ks samples bag).
Proof.
  intros N fuel cvx dist tol y preds m bags ks bag HX HQ Hd HF HI samples HK Hb.
  unfold FriedmanME_fit in HF. set (prevs := map _ (np_unique y)) in HF.
  pose proof (friedman_averages prevs) as HA. unfold prevs in HA at 1. rewrite map_length in HA.
  destruct (fit_matching_inv _ _ _ _ _ _ _ _ _ _ HA (friedman_nil prevs) HF) as (-> & HN & L).
  fold samples in HN, HI |- *.
  rewrite fitted_classes in HI. change (mt_bins _) with (length (np_unique y)) in HI.
  eapply (matching_recovers N fuel cvx dist tol); eauto.
  - intros r x. destruct (Rle_dec _ _); lra.
  - destruct Hd; subst; discriminate.
  - intros ->. destruct Hd; discriminate.
  - intros _. destruct HI as [HI|[_ HI]]; [now apply independent_identifiable|exact HI].
  - intros ->. destruct HI as [HI|[E _]]; [exact HI|discriminate].
Qed.
