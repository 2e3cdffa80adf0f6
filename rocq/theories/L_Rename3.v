(** * Renaming the labels: EoQ, and the examples. *)

From Coq Require Import Reals List ZArith Lra Lia Bool Permutation Sorted Arith FunctionalExtensionality.
From Verif Require Import Num Spec M_Ordinal M_Baselines M_Optim M_Match M_Bags M_Search M_Estimators M_Reg M_Eoq
  Spec_Bags Spec_Optim Spec_Estimators Spec_Eoq Spec_Rename L_Num L_Estimators3 L_Ordinal2 L_Rename L_Rename2.
Import ListNotations.
Open Scope R_scope.

Definition same_list {Q} (same : Q -> Q -> Prop) := same_outcome (Forall2 same).

Lemma collect_same : forall {Q I} (same : Q -> Q -> Prop) (g h : I -> out Q) l,
  (forall i, same_outcome same (g i) (h i)) -> same_list same (collect (map g l)) (collect (map h l)).
Proof.
  intros Q I same g h l H. induction l as [|i l IH]; simpl; [constructor|]. specialize (H i). unfold same_list in IH.
  destruct (g i), (h i); simpl in *; try contradiction; auto.
  destruct (collect (map g l)), (collect (map h l)); simpl in *; try contradiction; auto.
Qed.

Lemma obind_same : forall {Q I} (same : Q -> Q -> Prop) (o : out I) g h,
  (forall i, same_outcome same (g i) (h i)) -> same_outcome same (obind o g) (obind o h).
Proof. intros Q I same o g h H. destruct o; simpl; auto. Qed.

Section Rename4.
Context (f : Z -> Z) (Hf : order_preserving f).

Lemma items_map : forall {A B} (g : A -> B) idx l, items idx (map g l) = omap (map g) (items idx l).
Proof using.
  clear. intros A B g idx l. unfold items. induction idx as [|i idx IH]; simpl; auto. rewrite IH. clear IH.
  destruct (collect (map (item l) idx)); unfold item; rewrite nth_error_map; destruct (nth_error l i); reflexivity.
Qed.

Definition renamed_eoq {Q} (same : Q -> Q -> Prop) (q' q : eoq Q) : Prop :=
  eq_classes q' = map f (eq_classes q) /\ eq_bags q' = eq_bags q /\ eq_cuts q' = eq_cuts q /\
  Forall2 same (eq_quantifiers q') (eq_quantifiers q) /\ eq_distributions q' = eq_distributions q.

Lemma attribute_cuts_map : forall p k X classes, eoq_attribute_cuts p k X (map f classes) = eoq_attribute_cuts p k X classes.
Proof using. reflexivity. Qed.

Lemma fit_without_map : forall {Q} (same : Q -> Q -> Prop) fit p k X y bags,
  (forall X y, same_outcome same (fit X (map f y)) (fit X y)) ->
  same_outcome (renamed_eoq same) (fit_without fit p k X (map f y) bags) (fit_without fit p k X y bags).
Proof using Hf.
  intros Q same fit p k X y bags H. unfold fit_without. rewrite (np_unique_map f Hf), attribute_cuts_map.
  destruct (eoq_attribute_cuts p k X (np_unique y)) as [cuts|e|]; simpl; auto.
  match goal with |- same_outcome _ (obind (collect (map ?g ?l)) _) (obind (collect (map ?h _)) _) =>
    pose proof (collect_same same g h l) as C end.
  match type of C with ?P -> _ => assert (HP : P) end.
  { intros i. apply obind_same. intros b. apply obind_same. intros Xi. rewrite items_map.
    destruct (items (snd b) y); simpl; auto. }
  specialize (C HP). clear HP. unfold same_list in C.
  destruct (collect _) as [qs'|e|]; destruct (collect _) as [qs|e'|]; simpl in *; try contradiction; auto.
  destruct (eoq_distributions p cuts X); simpl; auto. repeat split; auto.
Qed.

Lemma n_predictions_renamed : forall p, n_predictions (renamed f p) = n_predictions p.
Proof using. clear. destruct p; simpl; auto. apply map_length. Qed.
Lemma described_renamed : forall k p, described k (renamed f p) = described k p.
Proof using. clear. destruct p; auto. Qed.

Lemma member_predictions_renamed : forall idx i p,
  member_predictions idx i (renamed f p) = omap (renamed f) (member_predictions idx i p).
Proof using.
  clear. intros idx i [l|l|l]; simpl.
  - rewrite items_map. destruct (items idx l); auto.
  - destruct (items idx l); auto.
  - destruct (items idx l) as [rows|e|]; simpl; auto. destruct (collect _); auto.
Qed.

Lemma fit_using_map : forall {Q} (same : Q -> Q -> Prop) ppf fit p y preds bags,
  (forall y p, same_outcome same (fit (map f y) (renamed f p)) (fit y p)) ->
  same_outcome (renamed_eoq same) (fit_using ppf fit p (map f y) (renamed f preds) bags) (fit_using ppf fit p y preds bags).
Proof using Hf.
  intros Q same ppf fit p y preds bags H. unfold fit_using.
  rewrite n_predictions_renamed, (np_unique_map f Hf), y_ext_map.
  replace (extended_indexes p (map f y) (n_predictions preds) bags) with (extended_indexes p y (n_predictions preds) bags)
    by (unfold extended_indexes; now rewrite map_length).
  destruct (extended_indexes p y (n_predictions preds) bags) as [columns|e|]; simpl; auto.
  match goal with |- same_outcome _ (obind (collect (map ?g ?l)) _) (obind (collect (map ?h _)) _) =>
    pose proof (collect_same same g h l) as C end.
  match type of C with ?P -> _ => assert (HP : P) end.
  { intros i. apply obind_same. intros idx. rewrite items_map, member_predictions_renamed.
    destruct (items idx (y_ext y (n_predictions preds))); simpl; auto.
    destruct (member_predictions idx i preds); simpl; auto. }
  specialize (C HP). clear HP. unfold same_list in C.
  assert (Ec : eoq_prediction_cuts ppf p (map f (np_unique y)) (map f (y_ext y (n_predictions preds))) (renamed f preds) =
               eoq_prediction_cuts ppf p (np_unique y) (y_ext y (n_predictions preds)) preds).
  { unfold eoq_prediction_cuts. rewrite map_length, described_renamed. destruct (described _ preds); auto.
    f_equal. apply map_ext. intros d. apply (bincuts_map f Hf). }
  assert (Ed : forall cuts, eoq_prediction_distributions p (map f (np_unique y)) cuts (renamed f preds) =
               eoq_prediction_distributions p (np_unique y) cuts preds).
  { intros cuts. unfold eoq_prediction_distributions. now rewrite map_length, described_renamed. }
  rewrite Ec. clear Ec.
  destruct (collect _) as [qs'|e|]; destruct (collect _) as [qs|e'|]; cbn [same_outcome obind omap] in *; try contradiction; auto.
  destruct (eoq_prediction_cuts _ _ _ _ _) as [cuts|e|]; cbn [same_outcome obind omap]; auto. rewrite Ed.
  destruct (eoq_prediction_distributions _ _ _ _); cbn [same_outcome obind omap]; auto. repeat split; auto.
Qed.

Lemma item_same : forall {Q} (same : Q -> Q -> Prop) l' l i, Forall2 same l' l -> same_outcome same (item l' i) (item l i).
Proof using.
  clear. intros Q same l' l i F. revert i. induction F; intros [|i]; simpl; auto. apply IHF.
Qed.

Lemma test_predictions_renamed : forall i p, test_predictions i (renamed f p) = omap (renamed f) (test_predictions i p).
Proof using. clear. intros i [l|l|l]; simpl; auto. destruct (collect _); auto. Qed.

Lemma collect_ext : forall {A I} (g h : I -> out A) l, (forall i, g i = h i) -> collect (map g l) = collect (map h l).
Proof using. clear. intros A I g h l H. f_equal. apply map_ext. auto. Qed.

Lemma predict_map : forall {Q} argsort distance (b : base Q) (same : Q -> Q -> Prop) p q' q k X preds,
  renamed_eoq same q' q ->
  match b with
  | Without _ predict => forall q' q X, same q' q -> predict q' X = predict q X
  | Using _ predict => forall q' q p, same q' q -> predict q' (renamed f p) = predict q p
  | OtherBase => True
  end ->
  EoQ_predict argsort distance b p q' k X (renamed f preds) = EoQ_predict argsort distance b p q k X preds.
Proof using.
  clear. intros Q argsort distance b same p q' q k X preds (Ec & Eb & Eu & Fq & Ed) H. unfold EoQ_predict.
  assert (E1 : member_prevalences b p q' X (renamed f preds) = member_prevalences b p q X preds).
  { unfold member_prevalences. rewrite Ec, map_length. apply collect_ext. intros i.
    pose proof (item_same same _ _ i Fq) as S. destruct (item (eq_quantifiers q') i), (item (eq_quantifiers q) i);
      simpl in *; try contradiction; subst; auto. f_equal. destruct b; auto. rewrite test_predictions_renamed.
    destruct (test_predictions i preds); simpl; auto. }
  assert (E2 : test_distribution b p q' k X (renamed f preds) = test_distribution b p q k X preds).
  { unfold test_distribution. rewrite Ec, map_length, Eu. destruct b; auto. now rewrite described_renamed. }
  rewrite E1. destruct (member_prevalences b p q X preds) as [prevs|e|]; auto. simpl. unfold combine_members.
  rewrite Ec, map_length, E2, Ed. reflexivity.
Qed.

Lemma EoQ_map : forall {S Q} (B : settable S) ppf (b : base Q) argsort distance p k X y preds given g kt Xt tests,
  label_free f (se_source B) -> label_free_base f b ->
  option_map (fun r => (obind (fst r) (fun q => EoQ_predict argsort distance b p q kt Xt (renamed f tests)), snd r))
    (EoQ_fit B ppf b p k X (map f y) (renamed f preds) given g) =
  option_map (fun r => (obind (fst r) (fun q => EoQ_predict argsort distance b p q kt Xt tests), snd r))
    (EoQ_fit B ppf b p k X y preds given g).
Proof using Hf.
  intros S Q B ppf b argsort distance p k X y preds given g kt Xt tests LF (same & Hb). unfold EoQ_fit, eoq_bags.
  rewrite LF.
  destruct (match given with Some bags => Some (Val bags, g) | None => _ end) as [[o g']|]; auto. simpl. do 2 f_equal.
  destruct o as [bags|e|]; auto. simpl. destruct b as [fit predict|fit predict|]; auto.
  - destruct Hb as [H1 H2]. pose proof (fit_without_map same fit p k X y bags H1) as E.
    destruct (fit_without fit p k X (map f y) bags), (fit_without fit p k X y bags); simpl in *; try contradiction; subst; auto.
    exact (predict_map argsort distance (Without fit predict) same p _ _ kt Xt tests E H2).
  - destruct Hb as [H1 H2]. pose proof (fit_using_map same ppf fit p y preds bags H1) as E.
    destruct (fit_using ppf fit p (map f y) (renamed f preds) bags), (fit_using ppf fit p y preds bags);
      simpl in *; try contradiction; subst; auto.
    exact (predict_map argsort distance (Using fit predict) same p _ _ kt Xt tests E H2).
Qed.

Lemma counting_label_free : label_free_base f counting_base.
Proof using Hf.
  exists (fun c' c => c' = map f c). split.
  - intros y p. simpl. apply (np_unique_map f Hf).
  - intros q' q p ->. destruct p as [[|a l]|l|l]; auto. cbn [renamed map]. rewrite map_map. f_equal. apply map_ext. intros c.
    unfold fraction. change (f a :: map f l) with (map f (a :: l)). now rewrite (zcount_map f Hf), map_length.
Qed.
End Rename4.

(** ** The order of the labels *)

Lemma rev_sorted : forall l, StronglySorted Z.lt l -> StronglySorted Z.lt (rev (map Z.opp l)).
Proof.
  induction 1 as [|a l S IH F]; simpl; [constructor|].
  assert (G : forall m x, StronglySorted Z.lt m -> Forall (fun z => (z < x)%Z) m -> StronglySorted Z.lt (m ++ [x])).
  { clear. induction m as [|b m IH]; intros x S F; simpl; [repeat constructor|]. inversion S; inversion F; subst.
    constructor; auto. apply Forall_app. split; auto. }
  apply G; auto. apply Forall_rev. apply Forall_forall. intros z Hz. apply in_map_iff in Hz. destruct Hz as (w & <- & Hw).
  rewrite Forall_forall in F. specialize (F w Hw). lia.
Qed.

Lemma np_unique_opp : forall l, np_unique (map Z.opp l) = rev (map Z.opp (np_unique l)).
Proof.
  intros l. apply sorted_lt_ext; [apply np_unique_sorted|apply rev_sorted, np_unique_sorted|].
  intros x. rewrite np_unique_in, <- in_rev, !in_map_iff. split; intros (z & E & Hz); exists z; (split; [exact E|]).
  - exact (proj2 (np_unique_in z l) Hz).
  - exact (proj1 (np_unique_in z l) Hz).
Qed.

Lemma zcount_opp : forall c l, zcount (- c) (map Z.opp l) = zcount c l.
Proof.
  intros c l. unfold zcount. induction l as [|a l IH]; simpl; auto.
  destruct (Z.eq_dec (- a) (- c)), (Z.eq_dec a c); auto; lia.
Qed.

Lemma CC_reversed : forall y preds,
  CC_predict (np_unique (map Z.opp y)) (map Z.opp preds) = omap (@rev R) (CC_predict (np_unique y) preds).
Proof.
  intros y preds. unfold CC_predict, class_frequencies. destruct preds as [|a preds]; auto.
  change (map Z.opp (a :: preds)) with (- a :: map Z.opp preds)%Z at 1. cbv iota. cbn [omap obind]. f_equal.
  rewrite np_unique_opp, map_rev, map_map. f_equal. apply map_ext. intros c. now rewrite zcount_opp, map_length.
Qed.

(** ** Examples *)

Lemma one_variable_reads : reads_dimensions one_variable.
Proof.
  constructor; simpl; auto. intros n m G H a c C b meq E1 E2. destruct (Nat.eqb_spec n 1) as [->|]; auto.
  rewrite E1, E2 by lia. reflexivity.
Qed.

Lemma one_variable_ED :
  option_map (fun m => ED_predict one_variable m [[3/2]; [3]])
    (ED_fit one_variable 1 (fun a b => Rabs (hd 0 a - hd 0 b)) (np_unique [2; 5]%Z) [2; 5]%Z [[3/2]; [4]]) =
  Some (Val [7/10; 1 - 7/10]).
Proof.
  rewrite ED_unfold. cbv zeta. change (np_unique [2; 5]%Z) with [2; 5]%Z. cbn [length Nat.sub].
  set (tr := fun i => select (nth i [2; 5]%Z 0%Z) [2; 5]%Z [[3/2]; [4]]).
  set (K := ed_K _ _ _).
  assert (T0 : tr 0%nat = [[3/2]]) by reflexivity. assert (T1 : tr 1%nat = [[4]]) by reflexivity.
  assert (A1 : Rabs (3/2 - 3/2) = 0) by (rewrite Rabs_right; lra).
  assert (A2 : Rabs (3/2 - 4) = 5/2) by (rewrite Rabs_left; lra).
  assert (A3 : Rabs (4 - 4) = 0) by (rewrite Rabs_right; lra).
  assert (A4 : Rabs (3/2 - 3) = 3/2) by (rewrite Rabs_left; lra).
  assert (A5 : Rabs (4 - 3/2) = 5/2) by (rewrite Rabs_right; lra).
  assert (A6 : Rabs (4 - 3) = 1) by (rewrite Rabs_right; lra).
  assert (K00 : K 0%nat 0%nat = 0). { unfold K, ed_K. cbn [Nat.leb]. change (select _ _ _) with (tr 0%nat). rewrite T0. unfold pair_sum. simpl. rewrite A1. lra. }
  assert (K01 : K 0%nat 1%nat = 5/2).
  { unfold K, ed_K. cbn [Nat.leb]. rewrite T0, T1. unfold pair_sum. simpl. rewrite A2. lra. }
  assert (K11 : K 1%nat 1%nat = 0). { unfold K, ed_K. cbn [Nat.leb]. rewrite T1. unfold pair_sum. simpl. rewrite A3. lra. }
  assert (G00 : 2 * ed_B 2 K 0%nat 0%nat = 10). { unfold ed_B. simpl. rewrite K00, K01, K11. lra. }
  assert (P : is_pd 1 (fun i j => 2 * ed_B 2 K i j) = true).
  { unfold is_pd, dpofa. cbn [dpofa_from dpofa_column seq fold_left]. rewrite G00. destruct (Rle_dec (10 - 0) 0); [lra|reflexivity]. }
  unfold ensure_pd. rewrite P. cbn [option_map]. 
  match goal with |- context [if ?b then _ else NotANumber] => change b with true end. cbv iota.
  unfold solve_ed. cbn [solve_qp one_variable Nat.sub Nat.eqb]. rewrite G00.
  assert (Ea : compute_ed_param_test 2 (fun a b => Rabs (hd 0 a - hd 0 b)) tr [[3/2]; [3]] K (fun i => INR (length (tr i))) 0%nat = 7).
  { unfold compute_ed_param_test. cbn [Nat.sub]. rewrite T0, T1, K01, K11. unfold pair_sum. simpl.
    rewrite A1, A4, A5, A6. lra. }
  match goal with |- context [clip01 (?e / 10)] => change e with
    (compute_ed_param_test 2 (fun a b => Rabs (hd 0 a - hd 0 b)) tr [[3/2]; [3]] K (fun i => INR (length (tr i))) 0%nat) end.
  rewrite Ea. replace (clip01 (7/10)) with (7/10).
  - do 2 f_equal. simpl. apply f_equal2; auto. apply f_equal2; auto. lra.
  - unfold clip01. rewrite Rmax_left, Rmin_left; lra.
Qed.

Lemma any_renaming_refuted : ~ forall f, (forall a b, f a = f b -> a = b) -> forall y preds,
  CC_predict (np_unique (map f y)) (map f preds) = CC_predict (np_unique y) preds.
Proof.
  intros H. specialize (H Z.opp ltac:(intros; lia) [2; 5]%Z [5]%Z). rewrite CC_reversed in H.
  assert (E : CC_predict (np_unique [2; 5]%Z) [5]%Z = Val [INR 0 / INR 1; INR 1 / INR 1]) by reflexivity.
  rewrite E in H. cbn [omap obind rev app] in H. injection H as H1 _. simpl in H1. lra.
Qed.

Lemma PWK_both : forall f, order_preserving f -> forall y all, (2 <= length (np_unique y))%nat ->
  Forall (fun nb => nb <> [] /\ Forall (fun i => (i < length y)%nat) nb) all ->
  PWK_predict (map f y) all = map f (PWK_predict y all) /\
  Forall (fun nb => PWK_row (map f y) nb = PWK_row y nb) all.
Proof.
  intros f Hf y all H2 F. split; [now apply PWK_map|]. eapply Forall_impl; [|exact F]. intros nb [_ H]. now apply PWK_row_map.
Qed.

Lemma PWK_one_class_refuted : ~ forall f, order_preserving f -> forall y all,
  Forall (fun nb => nb <> [] /\ Forall (fun i => (i < length y)%nat) nb) all ->
  PWK_predict (map f y) all = map f (PWK_predict y all).
Proof.
  intros H. specialize (H (fun c => c + 1)%Z ltac:(intros a b; lia) (repeat 3%Z 1) [[0%nat]]).
  assert (F : Forall (fun nb => nb <> [] /\ Forall (fun i => (i < length (repeat 3%Z 1))%nat) nb) [[0%nat]]).
  { apply Forall_cons; [|apply Forall_nil]. split; [discriminate|]. apply Forall_cons; [simpl; lia|apply Forall_nil]. }
  specialize (H F). change (map (fun c => c + 1)%Z (repeat 3%Z 1)) with (repeat 4%Z 1) in H.
  rewrite (proj2 (PWK_single_class 4 0 [0%nat] [[0%nat]] ltac:(discriminate))) in H.
  rewrite (proj2 (PWK_single_class 3 0 [0%nat] [[0%nat]] ltac:(discriminate))) in H. discriminate.
Qed.

Lemma predict_label_renamed : forall f classes probs, length probs = length classes -> classes <> [] ->
  predict_label (map f classes) probs = f (predict_label classes probs).
Proof.
  intros f classes probs L N. apply predict_label_map. rewrite <- L. apply argmax_spec. intros ->. simpl in L.
  destruct classes; [congruence|discriminate].
Qed.
