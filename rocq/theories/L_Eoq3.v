(** * Ensembles of quantifiers: fit, stored distributions, selection by distribution. *)

From Coq Require Import Reals List ZArith Lra Lia Permutation Bool.
From Verif Require Import Num Spec L_Num M_Baselines M_Metrics L_Metrics M_Bags Spec_Bags L_Bags M_Match Spec_Match
  L_Match L_Match2 L_Match3 L_Match6 L_Match7 L_Match12 M_Reg Spec_Reg L_Reg L_Reg2 M_Eoq Spec_Eoq L_Eoq L_Eoq2.
Import ListNotations.
Open Scope R_scope.

Lemma obind_inv : forall {A B} (o : out A) (f : A -> out B) v, obind o f = Val v -> exists a, o = Val a /\ f a = Val v.
Proof. intros A B [a|e|] f v H; try discriminate. eauto. Qed.
Lemma omap_inv : forall {A B} (f : A -> B) (o : out A) v, omap f o = Val v -> exists a, o = Val a /\ v = f a.
Proof. intros A B f [a|e|] v H; try discriminate. inversion H. eauto. Qed.

Lemma EoQ_fit_inv : forall {S Q} (B : settable S) ppf (b : base Q) p k X y preds given g q g',
  EoQ_fit B ppf b p k X y preds given g = Some (Val q, g') ->
  exists bags, eoq_bags B p X y given g = Some (Val bags, g') /\
    match b with
    | Without fit _ => fit_without fit p k X y bags = Val q
    | Using fit _ => fit_using ppf fit p y preds bags = Val q
    | OtherBase => False
    end.
Proof.
  intros S Q B ppf b p k X y preds given g q g' H. unfold EoQ_fit in H.
  destruct (eoq_bags B p X y given g) as [[o g1]|] eqn:E; [|discriminate]. inversion H; subst.
  apply obind_inv in H1. destruct H1 as (bags & -> & H1). exists bags. split; [auto|]. destruct b; auto. discriminate.
Qed.

(** ** Stored distributions *)

Lemma attribute_cuts_inv : forall p k X classes cuts, eoq_attribute_cuts p k X classes = Val cuts ->
  length cuts = k /\ sized (ep_bins p) cuts /\ ((0 < k)%nat -> ep_bins p = 100%nat).
Proof.
  intros p k X classes cuts H. unfold eoq_attribute_cuts in H. pose proof (collect_length _ _ H) as L.
  rewrite map_length, seq_length in L.
  assert (N : forall i, (i < k)%nat -> length (nth i cuts []) = S (ep_bins p) /\ ep_bins p = 100%nat).
  { intros i Hi. pose proof (collect_nth _ _ _ H i 0%nat [] ltac:(rewrite seq_length; auto)) as E.
    apply obind_inv in E. destruct E as (c & Ec & E). destruct (Nat.eqb_spec (length c) 101) as [L1|L1]; [|discriminate].
    inversion E; subst. destruct (cuts_length _ _ _ _ _ _ _ _ Ec) as [L2 _]. lia. }
  split; [auto|]. split.
  - apply Forall_forall. intros c Hc. apply (In_nth _ _ []) in Hc. destruct Hc as (i & Hi & <-). apply N. lia.
  - intros Hk. apply (N 0%nat Hk).
Qed.

Lemma eoq_distribution_inv : forall kind cuts sample r nb, sized nb cuts -> eoq_distribution kind cuts sample = Val r ->
  r = counts nb cuts (length sample) sample /\ (0 < length sample)%nat /\ Forall ascending_edges cuts /\
  (kind = CDF -> cuts = []).
Proof.
  intros kind cuts sample r nb HS H. assert (D : describe cuts (length sample) sample = Val r /\ (kind = CDF -> cuts = [])).
  { unfold eoq_distribution in H. destruct kind, cuts; try discriminate; split; auto; discriminate. }
  destruct D as [D K]. destruct (describe_inv _ _ _ _ D) as [P A]. split; [now apply describe_eq|]. auto.
Qed.

Lemma eoq_distributions_inv : forall p cuts sample ds nb, sized nb cuts -> eoq_distributions p cuts sample = Val ds ->
  ds = repeat (counts nb cuts (length sample) sample) (ep_n p) /\
  ((0 < ep_n p)%nat -> (0 < length sample)%nat /\ Forall ascending_edges cuts /\ (ep_function p = CDF -> cuts = [])).
Proof.
  intros p cuts sample ds nb HS H. unfold eoq_distributions in H. pose proof (collect_length _ _ H) as L.
  rewrite map_length, seq_length in L.
  assert (N : forall i, (i < ep_n p)%nat -> nth i ds [] = counts nb cuts (length sample) sample /\ (0 < length sample)%nat /\
             Forall ascending_edges cuts /\ (ep_function p = CDF -> cuts = [])).
  { intros i Hi. pose proof (collect_nth _ _ _ H i 0%nat [] ltac:(rewrite seq_length; auto)) as E. cbn in E.
    apply (eoq_distribution_inv _ _ _ _ nb HS) in E. auto. }
  split.
  - apply (nth_ext _ _ [] (counts nb cuts (length sample) sample)); [now rewrite repeat_length|].
    intros i Hi. rewrite nth_repeat. apply N. lia.
  - intros Hn. apply (N 0%nat Hn).
Qed.

Lemma fit_without_inv : forall {Q} fit p k X y bags (q : eoq Q), fit_without fit p k X y bags = Val q ->
  eq_classes q = np_unique y /\ eq_bags q = bags /\ length (eq_quantifiers q) = ep_n p /\
  (forall i, (i < ep_n p)%nat -> exists b m, nth_error bags i = Some b /\ nth_error (eq_quantifiers q) i = Some m /\
     Forall (fun j => (j < length X)%nat /\ (j < length y)%nat) (snd b) /\
     fit (examples X (snd b)) (bag_labels y (snd b)) = Val m) /\
  length (eq_cuts q) = k /\ sized (ep_bins p) (eq_cuts q) /\ ((0 < k)%nat -> ep_bins p = 100%nat) /\
  eq_distributions q = repeat (counts (ep_bins p) (eq_cuts q) (length X) X) (ep_n p) /\
  ((0 < ep_n p)%nat -> (0 < length X)%nat /\ Forall ascending_edges (eq_cuts q) /\ (ep_function p = CDF -> k = 0%nat)).
Proof.
  intros Q fit p k X y bags q H. unfold fit_without in H.
  apply obind_inv in H. destruct H as (cuts & HC & H). apply obind_inv in H. destruct H as (qs & HQ & H).
  apply omap_inv in H. destruct H as (ds & HD & ->). cbn.
  destruct (attribute_cuts_inv _ _ _ _ _ HC) as (LC & SC & BC).
  destruct (eoq_distributions_inv _ _ _ _ _ SC HD) as (ED & PD).
  pose proof (collect_length _ _ HQ) as L. rewrite map_length, seq_length in L.
  split; [auto|]. split; [auto|]. split; [auto|]. split.
  { intros i Hi. destruct (nth_error qs i) as [m|] eqn:Em; [|apply nth_error_None in Em; lia].
    pose proof (collect_nth _ _ _ HQ i 0%nat m ltac:(rewrite seq_length; auto)) as E. rewrite seq_nth in E by auto.
    rewrite (nth_error_nth _ _ _ Em) in E. cbn in E.
    apply obind_inv in E. destruct E as (b & Eb & E). apply item_val in Eb.
    apply obind_inv in E. destruct E as (Xi & EX & E). apply obind_inv in E. destruct E as (yi & EY & E).
    apply (items_inv _ _ []) in EX. destruct EX as [FX ->]. apply (items_inv _ _ 0%Z) in EY. destruct EY as [FY ->].
    exists b, m. split; [auto|]. split; [auto|]. split; [|auto].
    apply Forall_forall. intros j Hj. rewrite Forall_forall in FX, FY. auto. }
  split; [auto|]. split; [auto|]. split; [auto|]. split; [auto|].
  intros Hn. destruct (PD Hn) as (P1 & P2 & P3). split; [auto|]. split; [auto|]. intros E. rewrite <- LC, (P3 E). reflexivity.
Qed.

Lemma prediction_cuts_inv : forall ppf p classes ye preds rows cuts, described (length classes) preds = Some rows ->
  eoq_prediction_cuts ppf p classes ye preds = Val cuts ->
  sized (ep_bins p) cuts /\ length cuts = n_descriptors (length classes).
Proof.
  intros ppf p classes ye preds rows cuts HD H. unfold eoq_prediction_cuts in H. rewrite HD in H.
  pose proof (collect_length _ _ H) as L. rewrite map_length, seq_length in L. split; [|auto].
  apply Forall_forall. intros c Hc. apply (In_nth _ _ []) in Hc. destruct Hc as (i & Hi & <-).
  pose proof (collect_nth _ _ _ H i 0%nat [] ltac:(rewrite seq_length; lia)) as E.
  apply (cuts_length _ _ _ _ _ _ _ _ E).
Qed.

Lemma fit_using_inv : forall {Q} ppf fit p y preds bags (q : eoq Q), fit_using ppf fit p y preds bags = Val q ->
  eq_classes q = np_unique y /\ eq_bags q = bags /\ length (eq_quantifiers q) = ep_n p /\
  exists columns, extended_indexes p y (n_predictions preds) bags = Val columns /\
  (forall i, (i < ep_n p)%nat -> exists idx yi pi m, nth_error columns i = Some idx /\ nth_error (eq_quantifiers q) i = Some m /\
     items idx (y_ext y (n_predictions preds)) = Val yi /\ member_predictions idx i preds = Val pi /\ fit yi pi = Val m) /\
  eoq_prediction_cuts ppf p (np_unique y) (y_ext y (n_predictions preds)) preds = Val (eq_cuts q) /\
  eoq_prediction_distributions p (np_unique y) (eq_cuts q) preds = Val (eq_distributions q).
Proof.
  intros Q ppf fit p y preds bags q H. unfold fit_using in H.
  apply obind_inv in H. destruct H as (cols & HI & H). apply obind_inv in H. destruct H as (qs & HQ & H).
  apply obind_inv in H. destruct H as (cuts & HC & H). apply omap_inv in H. destruct H as (ds & HD & ->). cbn.
  pose proof (collect_length _ _ HQ) as L. rewrite map_length, seq_length in L.
  split; [auto|]. split; [auto|]. split; [auto|]. exists cols. split; [auto|]. split; [|auto].
  intros i Hi. destruct (nth_error qs i) as [m|] eqn:Em; [|apply nth_error_None in Em; lia].
  pose proof (collect_nth _ _ _ HQ i 0%nat m ltac:(rewrite seq_length; auto)) as E. rewrite seq_nth in E by auto.
  rewrite (nth_error_nth _ _ _ Em) in E. cbn [Nat.add] in E.
  apply obind_inv in E. destruct E as (idx & EI & E). apply item_val in EI.
  apply obind_inv in E. destruct E as (yi & EY & E). apply obind_inv in E. destruct E as (pi & EP & E).
  exists idx, yi, pi, m. auto.
Qed.

Lemma fit_using_rows : forall {Q} ppf fit p y preds bags (q : eoq Q) rows, fit_using ppf fit p y preds bags = Val q ->
  described (length (np_unique y)) preds = Some rows ->
  sized (ep_bins p) (eq_cuts q) /\ length (eq_cuts q) = n_descriptors (length (np_unique y)) /\
  eq_distributions q = repeat (counts (ep_bins p) (eq_cuts q) (length rows) rows) (ep_n p) /\
  ((0 < ep_n p)%nat -> (0 < length rows)%nat /\ Forall ascending_edges (eq_cuts q) /\ (ep_function p = CDF -> eq_cuts q = [])).
Proof.
  intros Q ppf fit p y preds bags q rows H HR.
  destruct (fit_using_inv _ _ _ _ _ _ _ H) as (_ & _ & _ & _ & _ & _ & HC & HD).
  destruct (prediction_cuts_inv _ _ _ _ _ _ _ HR HC) as [SC LC].
  unfold eoq_prediction_distributions in HD. rewrite HR in HD.
  destruct (eoq_distributions_inv _ _ _ _ _ SC HD) as (ED & PD). auto.
Qed.

(** The number of members. *)
Lemma fitted_size : forall {S Q} (B : settable S) ppf (b : base Q) p k X y preds given g q g',
  EoQ_fit B ppf b p k X y preds given g = Some (Val q, g') ->
  length (eq_quantifiers q) = ep_n p /\ eq_classes q = np_unique y.
Proof.
  intros S Q B ppf b p k X y preds given g q g' H. destruct (EoQ_fit_inv _ _ _ _ _ _ _ _ _ _ _ _ H) as (bags & _ & F).
  destruct b as [fit pr|fit pr|]; [| |destruct F].
  - destruct (fit_without_inv _ _ _ _ _ _ _ F) as (E & _ & L & _). auto.
  - destruct (fit_using_inv _ _ _ _ _ _ _ F) as (E & _ & L & _). auto.
Qed.

Lemma Forall_repeat : forall {A} (P : A -> Prop) a n, P a -> Forall P (repeat a n).
Proof. intros A P a n H. apply Forall_forall. intros x Hx. now rewrite (repeat_spec _ _ _ Hx). Qed.

Lemma without_whole : forall {S Q} (B : settable S) ppf fit predict p k X y preds given g (q : eoq Q) g',
  EoQ_fit B ppf (Without fit predict) p k X y preds given g = Some (Val q, g') ->
  length (eq_distributions q) = ep_n p /\
  Forall (bin_counts (ep_bins p) (eq_cuts q) (length X) X) (eq_distributions q).
Proof.
  intros S Q B ppf fit predict p k X y preds given g q g' H.
  destruct (EoQ_fit_inv _ _ _ _ _ _ _ _ _ _ _ _ H) as (bags & _ & F).
  destruct (fit_without_inv _ _ _ _ _ _ _ F) as (_ & _ & _ & _ & _ & _ & _ & E & _). rewrite E.
  split; [apply repeat_length|]. apply Forall_repeat. apply counts_spec.
Qed.

(** What is described of the predictions of the training set. *)
Lemma describes_described : forall k preds rows, describes k preds rows -> described k preds = Some rows.
Proof.
  intros k preds rows H. destruct preds as [l|l|l]; cbn in H |- *; [contradiction|congruence|].
  destruct H as [L H]. apply f_equal. unfold average_models. apply (nth_ext _ _ [] []); [now rewrite map_length|].
  intros i Hi. rewrite map_length in Hi. rewrite (nth_indep _ [] (col_means k [])) by (now rewrite map_length).
  rewrite map_nth. destruct (nth_error l i) as [ex|] eqn:E; [|apply nth_error_None in E; lia].
  destruct (H i ex E) as [L1 A]. rewrite (nth_error_nth _ _ _ E). apply list_nth_eq; [now rewrite col_means_length|].
  intros c Hc. rewrite col_means_length in Hc. rewrite A by auto. unfold col_means, col. now rewrite nth_map_seq.
Qed.

Lemma using_whole : forall {S Q} (B : settable S) ppf fit predict p k X y preds given g (q : eoq Q) g' rows,
  EoQ_fit B ppf (Using fit predict) p k X y preds given g = Some (Val q, g') ->
  describes (length (np_unique y)) preds rows ->
  length (eq_distributions q) = ep_n p /\
  Forall (bin_counts (ep_bins p) (eq_cuts q) (length rows) rows) (eq_distributions q).
Proof.
  intros S Q B ppf fit predict p k X y preds given g q g' rows H HR.
  destruct (EoQ_fit_inv _ _ _ _ _ _ _ _ _ _ _ _ H) as (bags & _ & F).
  destruct (fit_using_rows _ _ _ _ _ _ _ rows F (describes_described _ _ _ HR)) as (_ & _ & E & _). rewrite E.
  split; [apply repeat_length|]. apply Forall_repeat. apply counts_spec.
Qed.

(** ** Selection by distribution *)

Lemma collect_distances : forall (distance : list R -> list R -> R) t row n, length t = length row ->
  collect (map (fun r => if Nat.eqb (length t) (length r) then Val (distance t r) else Err ValueError) (repeat row n)) =
  Val (repeat (distance t row) n).
Proof.
  intros distance t row n E. induction n as [|n IH]; [reflexivity|]. cbn [repeat map collect]. rewrite IH, E, Nat.eqb_refl.
  reflexivity.
Qed.

Lemma argsort_repeat : forall argsort n v w, only_compares argsort -> argsort (repeat v n) = argsort (repeat w n).
Proof.
  intros argsort n v w HO. apply HO; [now rewrite !repeat_length|]. intros i j Hi Hj. rewrite repeat_length in Hi, Hj.
  assert (E : forall a i, (i < n)%nat -> nth i (repeat a n) 0 = a).
  { intros a i0 H0. rewrite (nth_indep _ 0 a) by (now rewrite repeat_length). apply nth_repeat. }
  rewrite !E by auto. split; intros; lra.
Qed.

Lemma test_distribution_val : forall {Q} (b : base Q) p q k X preds rows, sized (ep_bins p) (eq_cuts q) ->
  Forall ascending_edges (eq_cuts q) -> (ep_function p = CDF -> eq_cuts q = []) ->
  test_bag b q k X preds rows ->
  test_distribution b p q k X preds = Val (counts (ep_bins p) (eq_cuts q) (length rows) rows).
Proof.
  intros Q b p q k X preds rows HS HA HF (Hr & HT). unfold test_distribution. destruct b as [f pr|f pr|]; [| |contradiction].
  - destruct HT as [-> HK].
    assert (E : test_row (eq_cuts q) k X = Val (counts (ep_bins p) (eq_cuts q) (length X) X)) by (now apply test_row_val).
    rewrite E. destruct (ep_function p); auto. specialize (HF eq_refl). rewrite HF in HK. cbn in HK. subst k. reflexivity.
  - rewrite (describes_described _ _ _ HT). unfold eoq_distribution.
    assert (E : describe (eq_cuts q) (length rows) rows = Val (counts (ep_bins p) (eq_cuts q) (length rows) rows)).
    { apply describe_val; auto. destruct rows; [congruence|cbn; lia]. }
    destruct (ep_function p); auto. rewrite (HF eq_refl) in E |- *. exact E.
Qed.

(** What every successful fit gives. *)
Lemma fitted_shape : forall {S Q} (B : settable S) ppf (b : base Q) p k X y preds given g q g', (0 < ep_n p)%nat ->
  match b with Using _ _ => (forall l, preds <> Crisp l) | _ => True end ->
  EoQ_fit B ppf b p k X y preds given g = Some (Val q, g') ->
  exists row, eq_distributions q = repeat row (ep_n p) /\ length row = (ep_bins p * length (eq_cuts q))%nat /\
    sized (ep_bins p) (eq_cuts q) /\ Forall ascending_edges (eq_cuts q) /\ (ep_function p = CDF -> eq_cuts q = []).
Proof.
  intros S Q B ppf b p k X y preds given g q g' Hn HP H.
  destruct (EoQ_fit_inv _ _ _ _ _ _ _ _ _ _ _ _ H) as (bags & _ & F). destruct b as [fit pr|fit pr|]; [| |destruct F].
  - destruct (fit_without_inv _ _ _ _ _ _ _ F) as (_ & _ & _ & _ & LC & SC & _ & E & P).
    destruct (P Hn) as (_ & A & C). eexists. split; [exact E|]. split; [apply counts_length|]. split; [auto|]. split; [auto|].
    intros EC. specialize (C EC). rewrite C in LC. now apply length_zero_iff_nil.
  - destruct (described (length (np_unique y)) preds) as [rows|] eqn:ER.
    2:{ destruct preds; try discriminate. exfalso. now apply (HP ps). }
    destruct (fit_using_rows _ _ _ _ _ _ _ rows F ER) as (SC & LC & E & P). destruct (P Hn) as (_ & A & C).
    eexists. split; [exact E|]. split; [apply counts_length|]. auto.
Qed.

Lemma by_distribution : forall {Q} argsort distance (b : base Q) p q k X preds rows row,
  eq_distributions q = repeat row (ep_n p) -> length row = (ep_bins p * length (eq_cuts q))%nat ->
  sized (ep_bins p) (eq_cuts q) -> Forall ascending_edges (eq_cuts q) -> (ep_function p = CDF -> eq_cuts q = []) ->
  test_bag b q k X preds rows -> (0 <= n_selected p)%Z ->
  obind (test_distribution b p q k X preds) (fun t => distribution_selected argsort distance p t (eq_distributions q)) =
  Val (firstn (Z.to_nat (n_selected p))
        (argsort (repeat (distance (counts (ep_bins p) (eq_cuts q) (length rows) rows) row) (ep_n p)))).
Proof.
  intros Q argsort distance b p q k X preds rows row ED LR HS HA HF HT HZ.
  rewrite (test_distribution_val b p q k X preds rows HS HA HF HT). cbn [obind]. unfold distribution_selected. rewrite ED.
  rewrite collect_distances by (now rewrite counts_length). cbn. now rewrite slice_firstn.
Qed.

Lemma distribution_strategy : forall {S Q} (B : settable S) ppf argsort distance (b : base Q) p k X y preds given g q g'
    k' X' preds' rows answers, sorts argsort ->
  match b with Using _ _ => (forall l, preds <> Crisp l) | _ => True end ->
  EoQ_fit B ppf b p k X y preds given g = Some (Val q, g') ->
  ep_combination p = DistributionSimilarity -> 1 / 2 < INR (ep_n p) * ep_percentage p ->
  test_bag b q k' X' preds' rows ->
  members_answer b q X' preds' answers -> distributions (length (eq_classes q)) answers ->
  exists t n_sel r, let sel := firstn n_sel (argsort (map (distance t) (eq_distributions q))) in
    EoQ_predict argsort distance b p q k' X' preds' = Val (Vector r) /\
    bin_counts (ep_bins p) (eq_cuts q) (length rows) rows t /\
    Rabs (INR n_sel - INR (ep_n p) * ep_percentage p) <= 1 / 2 /\ (1 <= n_sel)%nat /\
    (only_compares argsort -> sel = firstn n_sel (argsort (repeat 0 (ep_n p)))) /\
    n_sel = Z.to_nat (n_selected p) /\
    closest (fun i => distance t (nth i (eq_distributions q) [])) (ep_n p) (Nat.min (ep_n p) n_sel) sel /\
    average_answer (length (eq_classes q)) answers sel r /\ distribution_over (length (eq_classes q)) r.
Proof.
  intros S Q B ppf argsort distance b p k X y preds given g q g' k' X' preds' rows answers HSrt HP HFit HC Hp HT HM HD.
  assert (Hn : (0 < ep_n p)%nat).
  { destruct (Nat.eq_dec (ep_n p) 0) as [Z|Z]; [|lia]. rewrite Z in Hp. change (INR 0) with 0 in Hp. lra. }
  destruct (fitted_size _ _ _ _ _ _ _ _ _ _ _ _ HFit) as [HN _].
  destruct (fitted_shape _ _ _ _ _ _ _ _ _ _ _ _ Hn HP HFit) as (row & ED & LR & SC & AC & CC).
  pose proof (n_selected_pos p Hp) as Np.
  set (t := counts (ep_bins p) (eq_cuts q) (length rows) rows).
  assert (EM : map (distance t) (eq_distributions q) = repeat (distance t row) (ep_n p)).
  { rewrite ED. clear. induction (ep_n p) as [|n IH]; [reflexivity|]. cbn. now rewrite IH. }
  exists t, (Z.to_nat (n_selected p)).
  set (sel := firstn (Z.to_nat (n_selected p)) (argsort (map (distance t) (eq_distributions q)))).
  exists (col_means (length (eq_classes q)) (rows_at sel answers)). cbv zeta.
  assert (LD : length (map (distance t) (eq_distributions q)) = ep_n p) by (rewrite EM; apply repeat_length).
  pose proof (proj1 HM) as HL.
  assert (C : closest (fun i => distance t (nth i (eq_distributions q) [])) (length answers)
                (Nat.min (length answers) (Z.to_nat (n_selected p))) sel).
  { replace (length answers) with (length (map (distance t) (eq_distributions q))) by lia.
    apply (closest_ext (fun i => nth i (map (distance t) (eq_distributions q)) 0)).
    - intros i Hi. rewrite (nth_indep _ 0 (distance t [])) by auto. now rewrite map_nth.
    - now apply closest_firstn. }
  destruct (selected_mean _ _ answers (Z.to_nat (n_selected p)) sel HD ltac:(lia) ltac:(lia) C) as (E' & A' & D').
  split.
  { unfold EoQ_predict. rewrite (members_prevalences _ _ _ _ _ answers HN HM (arrays_distributions _ _ HD)). cbn [obind].
    unfold combine_members. rewrite HC. cbv zeta.
    rewrite (by_distribution argsort distance b p q k' X' preds' rows row ED LR SC AC CC HT ltac:(lia)). cbn [obind].
    fold t. rewrite <- EM. fold sel. rewrite E'. reflexivity. }
  split; [apply counts_spec|]. split; [now apply n_selected_near|]. split; [lia|]. split.
  { intros HO. unfold sel. rewrite EM. now rewrite (argsort_repeat argsort _ _ 0 HO). }
  split; [auto|]. rewrite HL, HN in C. auto.
Qed.
