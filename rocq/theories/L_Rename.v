(** * Renaming the labels does not change the prevalences. *)

From Coq Require Import Reals List ZArith Lra Lia Bool Permutation Sorted Arith FunctionalExtensionality.
From Verif Require Import Num Spec M_Baselines M_EM M_Optim M_Match M_Bags M_Ordinal M_Search M_Estimators M_Reg M_Eoq
  Spec_Bags Spec_Rename L_Num.
Import ListNotations.
Open Scope R_scope.

Section Rename.
Context (f : Z -> Z) (Hf : order_preserving f).

Lemma f_inj : forall a b, f a = f b -> a = b.
Proof using Hf.
  intros a b E. destruct (Z.lt_trichotomy a b) as [L|[L|L]]; auto; apply Hf in L; lia.
Qed.
Lemma f_eqb : forall a b, Z.eqb (f a) (f b) = Z.eqb a b.
Proof using Hf.
  intros a b. destruct (Z.eqb_spec a b) as [->|N]; [apply Z.eqb_refl|].
  apply Z.eqb_neq. intros E. apply N. now apply f_inj.
Qed.

Lemma map_sorted : forall l, StronglySorted Z.lt l -> StronglySorted Z.lt (map f l).
Proof using Hf.
  induction 1; simpl; constructor; auto. apply Forall_forall. intros x Hx. apply in_map_iff in Hx.
  destruct Hx as (z & <- & Hz). apply Hf. rewrite Forall_forall in H0. auto.
Qed.

Lemma np_unique_map : forall l, np_unique (map f l) = map f (np_unique l).
Proof using Hf.
  intros l. apply sorted_lt_ext; [apply np_unique_sorted|apply map_sorted, np_unique_sorted|].
  intros x. rewrite np_unique_in, !in_map_iff. split; intros (z & E & Hz); exists z; (split; [exact E|]).
  - exact (proj2 (np_unique_in z l) Hz).
  - exact (proj1 (np_unique_in z l) Hz).
Qed.

Lemma zcount_map : forall c l, zcount (f c) (map f l) = zcount c l.
Proof using Hf.
  intros c l. unfold zcount. induction l as [|a l IH]; simpl; auto.
  destruct (Z.eq_dec (f a) (f c)) as [E|E], (Z.eq_dec a c) as [E'|E']; auto.
  - apply f_inj in E. congruence.
  - congruence.
Qed.

Lemma combine_map_l : forall {A} (y : list Z) (rows : list A),
  combine (map f y) rows = map (fun p => (f (fst p), snd p)) (combine y rows).
Proof using. clear Hf. induction y as [|a y IH]; intros [|r rows]; simpl; auto. now rewrite IH. Qed.

Lemma select_map_labels : forall {A} c y (rows : list A), select (f c) (map f y) rows = select c y rows.
Proof using Hf.
  intros A c y rows. unfold select. rewrite combine_map_l. induction (combine y rows) as [|p l IH]; simpl; auto.
  rewrite f_eqb. destruct (Z.eqb (fst p) c); simpl; now rewrite IH.
Qed.

Lemma y_ext_map : forall y n, y_ext (map f y) n = map f (y_ext y n).
Proof using.
  clear Hf. intros y n. unfold y_ext. rewrite map_length. destruct (Nat.eqb (length y) n); auto.
  generalize (n / length y)%nat. intros k. induction k; simpl; auto. now rewrite map_app, IHk.
Qed.

(** ** CC, PCC, AC, PAC, PWKQuantifier, DeBias, EM *)

Lemma frequencies_map : forall classes preds,
  class_frequencies (map f classes) (map f preds) = class_frequencies classes preds.
Proof using Hf.
  intros classes preds. unfold class_frequencies. destruct preds as [|p preds]; auto.
  change (map f (p :: preds)) with (f p :: map f preds) at 1. cbv iota. f_equal. rewrite map_map.
  apply map_ext. intros c. now rewrite zcount_map, map_length.
Qed.

Lemma CC_map : forall y preds, CC_predict (np_unique (map f y)) (map f preds) = CC_predict (np_unique y) preds.
Proof using Hf. intros. unfold CC_predict. now rewrite np_unique_map, frequencies_map. Qed.

Lemma pair_count_map : forall c d y preds,
  pair_count (f c) (f d) (map f y) (map f preds) = pair_count c d y preds.
Proof using Hf.
  intros c d y. unfold pair_count. induction y as [|a y IH]; intros [|p preds]; simpl; auto.
  rewrite !f_eqb. destruct (Z.eqb a c && Z.eqb p d); simpl; now rewrite IH.
Qed.

Lemma confusion_map : forall classes y preds,
  confusion (map f classes) (map f y) (map f preds) = confusion classes y preds.
Proof using Hf.
  intros. unfold confusion. rewrite map_map. apply map_ext. intros c. rewrite map_map. apply map_ext. intros d.
  now rewrite pair_count_map.
Qed.

Lemma AC_fit_map : forall y preds, AC_fit (map f y) (map f preds) = AC_fit y preds.
Proof using Hf.
  intros y preds. unfold AC_fit. rewrite y_ext_map, !map_length, np_unique_map, confusion_map. reflexivity.
Qed.

Lemma AC_map : forall S d y preds bag,
  obind (AC_fit (map f y) (map f preds)) (fun cm => AC_predict S d (np_unique (map f y)) cm (map f bag)) =
  obind (AC_fit y preds) (fun cm => AC_predict S d (np_unique y) cm bag).
Proof using Hf.
  intros S d y preds bag. rewrite AC_fit_map. destruct (AC_fit y preds) as [cm|e|]; auto. simpl.
  unfold AC_predict. now rewrite np_unique_map, frequencies_map, map_length.
Qed.

Lemma class_mean_map : forall k c y (preds : list (list R)), class_mean k (f c) (map f y) preds = class_mean k c y preds.
Proof using Hf. intros. unfold class_mean. now rewrite select_map_labels. Qed.

Lemma PAC_fit_map : forall y preds, PAC_fit (map f y) preds = PAC_fit y preds.
Proof using Hf.
  intros y preds. unfold PAC_fit. rewrite y_ext_map, !map_length, np_unique_map, !map_length, map_map.
  destruct (Nat.eqb _ _); auto. f_equal. apply map_ext. intros c. now rewrite class_mean_map.
Qed.

Lemma PAC_map : forall S d y preds bag,
  obind (PAC_fit (map f y) preds) (fun cm => PAC_predict S d (np_unique (map f y)) cm bag) =
  obind (PAC_fit y preds) (fun cm => PAC_predict S d (np_unique y) cm bag).
Proof using Hf.
  intros S d y preds bag. rewrite PAC_fit_map. destruct (PAC_fit y preds) as [cm|e|]; auto. simpl.
  unfold PAC_predict. now rewrite np_unique_map, map_length.
Qed.

Lemma PWKQ_map : forall S y preds bag,
  obind (AC_fit (map f y) (map f preds)) (fun cm => PWKQ_predict S (np_unique (map f y)) cm (map f bag)) =
  obind (AC_fit y preds) (fun cm => PWKQ_predict S (np_unique y) cm bag).
Proof using Hf.
  intros S y preds bag. rewrite AC_fit_map. destruct (AC_fit y preds) as [cm|e|]; auto. simpl.
  unfold PWKQ_predict. now rewrite np_unique_map, frequencies_map, map_length.
Qed.

Lemma DeBias_map : forall y preds, DeBias_fit (map f y) preds = DeBias_fit y preds.
Proof using Hf.
  intros y preds. unfold DeBias_fit. rewrite np_unique_map.
  destruct (np_unique y) as [|c0 [|c1 [|c2 l]]]; simpl; auto. now rewrite !zcount_map, map_length.
Qed.

Lemma EM_map : forall y, EM_fit (map f y) = EM_fit y.
Proof using Hf.
  intros y. unfold EM_fit. rewrite np_unique_map, map_length. destruct y as [|a y]; auto.
  change (map f (a :: y)) with (f a :: map f y) at 1. cbv iota. f_equal. rewrite map_map.
  apply map_ext. intros c. now rewrite zcount_map.
Qed.

(** ** Distribution matching *)

Lemma existsb_map_eqb : forall c l, existsb (Z.eqb (f c)) (map f l) = existsb (Z.eqb c) l.
Proof using Hf. intros c l. induction l; simpl; auto. now rewrite f_eqb, IHl. Qed.

Lemma class_weights_map : forall n classes y, M_Match.class_weights n (map f classes) (map f y) = M_Match.class_weights n classes y.
Proof using Hf.
  intros. unfold M_Match.class_weights. rewrite map_map. apply map_ext. intros c.
  now rewrite existsb_map_eqb, zcount_map.
Qed.

Lemma bincuts_map : forall ppf x y classes n strat range,
  compute_bincuts ppf x (map f y) (map f classes) n strat range = compute_bincuts ppf x y classes n strat range.
Proof using Hf.
  intros. unfold compute_bincuts. rewrite !map_length, class_weights_map, map_map.
  replace (map (fun c => select (f c) (map f y) x) classes) with (map (fun c => select c y x) classes); auto.
  apply map_ext. intros c. now rewrite select_map_labels.
Qed.

Lemma fit_matching_map : forall {A} N fuel crit bins represent classes ye (rows : list A),
  fit_matching N fuel crit bins represent (map f classes) (map f ye) rows =
  fit_matching N fuel crit bins represent classes ye rows.
Proof using Hf.
  intros. unfold fit_matching. rewrite map_length, map_map. destruct (Nat.eqb _ _); auto. f_equal. f_equal.
  apply map_ext. intros c. now rewrite select_map_labels.
Qed.

Lemma DFy_cuts_map : forall ppf nb strat y preds, DFy_cuts ppf nb strat (map f y) preds = DFy_cuts ppf nb strat y preds.
Proof using Hf.
  intros. unfold DFy_cuts. rewrite np_unique_map, map_length. f_equal. apply map_ext. intros d. apply bincuts_map.
Qed.
Lemma DFX_cuts_map : forall ppf nb strat y k X, DFX_cuts ppf nb strat (map f y) k X = DFX_cuts ppf nb strat y k X.
Proof using Hf.
  intros. unfold DFX_cuts. rewrite np_unique_map. f_equal. apply map_ext. intros d. apply bincuts_map.
Qed.

Lemma DFy_map : forall ppf N fuel kind nb strat crit y preds,
  DFy_fit ppf N fuel kind nb strat crit (map f y) preds = DFy_fit ppf N fuel kind nb strat crit y preds.
Proof using Hf.
  intros. unfold DFy_fit. rewrite DFy_cuts_map, np_unique_map, y_ext_map.
  destruct (DFy_cuts ppf nb strat y preds) as [cuts|e|]; auto. simpl. now rewrite fit_matching_map.
Qed.

Lemma DFX_map : forall ppf N fuel kind nb strat crit y k X,
  DFX_fit ppf N fuel kind nb strat crit (map f y) k X = DFX_fit ppf N fuel kind nb strat crit y k X.
Proof using Hf.
  intros. unfold DFX_fit. rewrite DFX_cuts_map, np_unique_map.
  destruct (DFX_cuts ppf nb strat y k X) as [cuts|e|]; auto. simpl. now rewrite fit_matching_map.
Qed.

Lemma FriedmanME_map : forall N fuel crit y preds,
  FriedmanME_fit N fuel crit (map f y) preds = FriedmanME_fit N fuel crit y preds.
Proof using Hf.
  intros. unfold FriedmanME_fit. rewrite np_unique_map, y_ext_map, !map_length, map_map, fit_matching_map.
  do 2 f_equal. apply map_ext. intros c. now rewrite zcount_map.
Qed.

Lemma PDFO_map : forall N fuel nb d m y preds, PDFO_fit N fuel nb d m (map f y) preds = PDFO_fit N fuel nb d m y preds.
Proof using Hf.
  intros. unfold PDFO_fit. rewrite np_unique_map, y_ext_map, !map_length.
  destruct (Nat.leb _ 2); auto. destruct m; auto; now rewrite fit_matching_map.
Qed.

Lemma ACOrdinal_map : forall N cvx fuel y preds bag,
  omap (fun m => snd (ACOrdinal_predict N cvx m (map f bag))) (ACOrdinal_fit N fuel (map f y) (map f preds)) =
  omap (fun m => snd (ACOrdinal_predict N cvx m bag)) (ACOrdinal_fit N fuel y preds).
Proof using Hf.
  intros. unfold ACOrdinal_fit. rewrite AC_fit_map, np_unique_map, map_length.
  destruct (AC_fit y preds) as [cm|e|]; auto. simpl. destruct (all_some cm) as [rows|]; auto. simpl. f_equal.
  unfold ACOrdinal_predict, matching_predict, new_matcher. cbn [mt_represent]. unfold aco_represent.
  rewrite frequencies_map. destruct (class_frequencies (np_unique y) bag) as [t|e|]; auto.
  unfold estimate, omap, obind. cbn [mt_bins mt_classes mt_T mt_problem].
  match goal with |- context [solve_l1 ?a ?b ?c ?d ?e ?g] => destruct (solve_l1 a b c d e g) as [[P x]|e'|] end; reflexivity.
Qed.

(** ** Decompositions and ordinal classifiers *)

Lemma label_binarize_map : forall classes y, label_binarize (map f classes) (map f y) = label_binarize classes y.
Proof using Hf.
  intros classes y. unfold label_binarize. destruct classes as [|c0 [|c1 [|c2 l]]]; cbn [map]; rewrite ?map_map; auto.
  - apply map_ext. intros v. now rewrite f_eqb.
  - apply map_ext. intros v. rewrite !f_eqb, map_map. do 3 f_equal. apply map_ext. intros c. now rewrite f_eqb.
Qed.

Lemma FH_binarize_map : forall classes y, FH_binarize (map f classes) (map f y) = FH_binarize classes y.
Proof using Hf. intros. unfold FH_binarize. now rewrite label_binarize_map, map_length. Qed.

Lemma FHQ_map : forall {E X S} (q : quantifier E X S) a b x y p, FHQ_fit q a b x (map f y) p = FHQ_fit q a b x y p.
Proof using Hf. intros. unfold FHQ_fit. now rewrite np_unique_map, FH_binarize_map, map_length. Qed.
Lemma FHQ_without_map : forall {E X S} (q : quantifier E X S) x y, FHQ_fit_without q x (map f y) = FHQ_fit_without q x y.
Proof using Hf. intros. unfold FHQ_fit_without. now rewrite np_unique_map, FH_binarize_map, map_length. Qed.
Lemma OVR_map : forall {E X S} (q : quantifier E X S) a b x y p, OVR_fit q a b x (map f y) p = OVR_fit q a b x y p.
Proof using Hf. intros. unfold OVR_fit. now rewrite np_unique_map, label_binarize_map, map_length. Qed.

Lemma tree_scores_map : forall measure classes y left,
  tree_scores measure (map f classes) (map f y) left = tree_scores measure classes y left.
Proof using Hf. intros. unfold tree_scores. now rewrite FH_binarize_map, !map_length. Qed.
Lemma FHT_fit_map : forall measure classes y left,
  FHT_fit measure (map f classes) (map f y) left = FHT_fit measure classes y left.
Proof using Hf. intros. unfold FHT_fit. now rewrite tree_scores_map. Qed.

Lemma filter_map_labels : forall (p q : Z -> bool) l, (forall x, p (f x) = q x) -> filter p (map f l) = map f (filter q l).
Proof using. clear Hf. intros p q l H. induction l; simpl; auto. rewrite H. destruct (q a); simpl; now rewrite IHl. Qed.

Lemma setdiff_map : forall a b, setdiff1d (map f a) (map f b) = map f (setdiff1d a b).
Proof using Hf.
  intros. unfold setdiff1d. rewrite np_unique_map. apply filter_map_labels. intros x. now rewrite existsb_map_eqb.
Qed.
Lemma index_of_map : forall c l, index_of (f c) (map f l) = index_of c l.
Proof using Hf. intros c l. induction l; simpl; auto. rewrite f_eqb. destruct (Z.eqb a c); auto. Qed.
Lemma scale_classes_map : forall classes cls v probs,
  scale_classes (map f classes) (map f cls) v probs = scale_classes classes cls v probs.
Proof using Hf.
  intros classes cls v. unfold scale_classes. induction cls as [|c cls IH]; intros probs; simpl; auto.
  now rewrite index_of_map, IH.
Qed.

Lemma tree_probabilities_map : forall classes ests t subtree probs,
  tree_probabilities (map f classes) ests t (map f subtree) probs = tree_probabilities classes ests t subtree probs.
Proof using Hf.
  intros classes ests. induction t as [|pos l IHl r IHr]; intros subtree probs; auto. cbn [tree_probabilities].
  rewrite firstn_map, skipn_map. rewrite !setdiff_map.
  replace (match map f subtree with [] => map f (firstn (Datatypes.S pos) classes) | _ :: _ => map f (setdiff1d subtree (skipn (Datatypes.S pos) classes)) end)
    with (map f (match subtree with [] => firstn (Datatypes.S pos) classes | _ :: _ => setdiff1d subtree (skipn (Datatypes.S pos) classes) end))
    by (destruct subtree; auto).
  replace (match map f subtree with [] => map f (skipn (Datatypes.S pos) classes) | _ :: _ => map f (setdiff1d subtree (firstn (Datatypes.S pos) classes)) end)
    with (map f (match subtree with [] => skipn (Datatypes.S pos) classes | _ :: _ => setdiff1d subtree (firstn (Datatypes.S pos) classes) end))
    by (destruct subtree; auto).
  now rewrite !scale_classes_map, IHl, IHr.
Qed.

Lemma OQT_map : forall classes t examples, OQT_predict (map f classes) t examples = OQT_predict classes t examples.
Proof using Hf.
  intros. unfold OQT_predict. rewrite map_length. f_equal. apply map_ext. intros e. unfold FHT_predict_proba.
  rewrite map_length. apply (tree_probabilities_map classes e t []).
Qed.

Lemma OQT_all : forall measure y left examples,
  obind (FHT_fit measure (np_unique (map f y)) (map f y) left) (fun t => OQT_predict (np_unique (map f y)) t examples) =
  obind (FHT_fit measure (np_unique y) y left) (fun t => OQT_predict (np_unique y) t examples).
Proof using Hf.
  intros. rewrite np_unique_map, FHT_fit_map. destruct (FHT_fit measure (np_unique y) y left); auto. simpl. apply OQT_map.
Qed.

Lemma predict_label_map : forall classes probs, (argmax probs < length classes)%nat ->
  predict_label (map f classes) probs = f (predict_label classes probs).
Proof using.
  clear Hf. intros. unfold predict_label. rewrite (nth_indep _ 0%Z (f 0%Z)) by now rewrite map_length. apply map_nth.
Qed.

(** ** Bag generators *)

Lemma positions_map : forall c y, positions (f c) (map f y) = positions c y.
Proof using Hf.
  intros c y. unfold positions. rewrite map_length. generalize 0%nat.
  induction y as [|a y IH]; intros s; simpl; auto. rewrite f_eqb. destruct (Z.eqb a c); simpl; now rewrite IH.
Qed.

Lemma fill_map : forall {G} (RG : rng G) y classes ps position column g,
  fill RG (map f y) (combine (map f classes) ps) position column g = fill RG y (combine classes ps) position column g.
Proof using Hf.
  intros G RG y. induction classes as [|c classes IH]; intros [|p ps] position column g; simpl; auto.
  rewrite positions_map. destruct (Z.eqb p 0); auto. destruct (r_choice _ _ _ _) as [idx g']. apply IH.
Qed.

Lemma uniform_loop_map : forall {G} (RG : rng G) y classes bs mins low high fuel left g,
  uniform_loop RG (map f y) (map f classes) bs mins low high fuel left g =
  uniform_loop RG y classes bs mins low high fuel left g.
Proof using Hf.
  intros G RG y classes bs mins low high. induction fuel as [|fuel IH]; intros [|left] g; auto.
  cbn [uniform_loop]. rewrite map_length. destruct (Z.ltb low high); auto.
  destruct (r_randint _ _ _ _ _) as [draw g1]. destruct (accepted _ _); [|apply IH].
  rewrite fill_map. destruct (fill _ _ _ _ _ _) as [idx g2]. now rewrite IH.
Qed.

Lemma uniform_map : forall {G} (RG : rng G) y n bs mp fuel g,
  generate_uniform RG (map f y) n bs mp fuel g = generate_uniform RG y n bs mp fuel g.
Proof using Hf.
  intros. unfold generate_uniform. destruct (check_min_prevalence mp); auto. rewrite np_unique_map, map_length.
  destruct (limits _ _ _) as [[mins low] high]. apply uniform_loop_map.
Qed.

Lemma dirichlet_map : forall {G} (RG : rng G) y n bs al global g,
  generate_dirichlet RG (map f y) n bs al global g = generate_dirichlet RG y n bs al global g.
Proof using Hf.
  intros. unfold generate_dirichlet. rewrite np_unique_map, map_length.
  destruct (effective_alphas _ _); auto. destruct (r_dirichlet _ _ _ _) as [rows global'].
  assert (E : forall rows g, dirichlet_bags RG (map f y) (map f (np_unique y)) bs rows g =
                             dirichlet_bags RG y (np_unique y) bs rows g).
  { clear - Hf. induction rows as [|p rows IH]; intros g; simpl; auto. rewrite fill_map.
    destruct (fill _ _ _ _ _ _) as [idx g1]. now rewrite IH. }
  now rewrite E.
Qed.

Lemma PS_map : forall {G} (RG : rng G) fuel s y global, PS_generate RG fuel s (map f y) global = PS_generate RG fuel s y global.
Proof using Hf.
  intros. unfold PS_generate. destruct (ps_bags s); auto. destruct (get_random _ _); auto. rewrite map_length.
  destruct (ps_method s); auto.
  - now rewrite uniform_map, np_unique_map, map_length.
  - now rewrite dirichlet_map.
Qed.
End Rename.
