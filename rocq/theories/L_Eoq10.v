(** * EoQ objects: predictions after calls of fit that return or raise (C131). *)

From Coq Require Import Reals List ZArith Lra Lia Permutation Bool.
From Verif Require Import Num Spec L_Num M_Baselines M_Metrics M_Bags Spec_Bags M_Match Spec_Match L_Match L_Match2 L_Match3 L_Match6 L_Match7 L_Match12
  M_Reg Spec_Reg L_Reg L_Reg2 M_Eoq Spec_Eoq L_Eoq L_Eoq2 L_Eoq3 M_Fit3 L_Fit7 Spec_Fit M_Eoq2 Spec_Eoq2 L_Eoq9.
Import ListNotations.
Open Scope R_scope.

Lemma obind_same : forall {A B} (o : out A) (f g : A -> out B), (forall a, o = Val a -> f a = g a) -> obind o f = obind o g.
Proof. intros A B [a|e|] f g H; cbn; auto. Qed.

Lemma item_map : forall {A B} (f : A -> B) l i, item (map f l) i = omap f (item l i).
Proof. intros. unfold item. rewrite nth_error_map. now destruct (nth_error l i). Qed.

(** The class is usable if fit returned. *)
Lemma fitted_usable : forall {S Q} (B : settable S) ppf (c : base_class Q) new p k X y preds given g q g',
  EoQ_fit B ppf (base_of c new) p k X y preds given g = Some (Val q, g') -> usable c.
Proof.
  intros S Q B ppf c new p k X y preds given g q g' H. destruct (EoQ_fit_inv _ _ _ _ _ _ _ _ _ _ _ _ H) as (bags & _ & F).
  destruct c; cbn in *; auto.
Qed.

Lemma prevalences_object : forall {Q} (c : base_class Q) new p (q : eoq Q) X preds, usable c ->
  object_prevalences c p (length (eq_classes q)) (Some (map Some (eq_quantifiers q))) X preds =
  member_prevalences (base_of c new) p q X preds.
Proof.
  intros Q c new p q X preds U. unfold object_prevalences, member_prevalences. apply collect_ext. intros i _.
  unfold member_at. rewrite item_map.
  destruct c as [fit pr|fit pr| |]; cbn [base_of]; try destruct U; destruct (item (eq_quantifiers q) i) as [m|e|]; reflexivity.
Qed.

Lemma selected_in_range : forall argsort distance p t rows sel, sorts argsort ->
  distribution_selected argsort distance p t rows = Val sel -> Forall (fun i => (i < length rows)%nat) sel.
Proof.
  intros argsort distance p t rows sel HS H. unfold distribution_selected in H. apply omap_inv in H. destruct H as (ds & E & ->).
  apply collect_length in E. rewrite map_length in E. apply Forall_forall. intros i Hi.
  assert (I : In i (argsort ds)).
  { unfold slice in Hi. destruct (n_selected p <? 0)%Z;
      match type of Hi with In _ (firstn ?m _) => rewrite <- (firstn_skipn m (argsort ds)); apply in_or_app; left; exact Hi end. }
  destruct (HS ds) as [P _]. apply (Permutation_in _ P) in I. apply in_seq in I. lia.
Qed.

Lemma prevalences_length : forall {Q} (b : base Q) p q X preds prevs, member_prevalences b p q X preds = Val prevs -> length prevs = ep_n p.
Proof. intros Q b p q X preds prevs H. apply collect_length in H. now rewrite map_length, seq_length in H. Qed.

(** combine_members only reads some of the attributes. *)
Lemma combine_reads : forall {Q} argsort distance (b : base Q) p q q' k X preds prevs,
  length (eq_classes q) = length (eq_classes q') ->
  (needs_distributions p = true -> eq_cuts q = eq_cuts q' /\ eq_distributions q = eq_distributions q') ->
  combine_members argsort distance b p q k X preds prevs = combine_members argsort distance b p q' k X preds prevs.
Proof.
  intros Q argsort distance b p q q' k X preds prevs HC HN. unfold combine_members, needs_distributions in *. rewrite HC.
  assert (T : eq_cuts q = eq_cuts q' -> test_distribution b p q k X preds = test_distribution b p q' k X preds).
  { intros E. unfold test_distribution. now rewrite HC, E. }
  destruct (ep_combination p); auto; destruct (HN eq_refl) as [E1 E2]; rewrite (T E1), E2; reflexivity.
Qed.

Lemma object_combine_reads : forall {Q} argsort distance (b : base Q) p q q' k X preds prevs,
  length (eq_classes q) = length (eq_classes q') -> eq_cuts q = eq_cuts q' -> eq_distributions q = eq_distributions q' ->
  object_combine argsort distance b p q k X preds prevs = object_combine argsort distance b p q' k X preds prevs.
Proof.
  intros Q argsort distance b p q q' k X preds prevs HC HK HD. unfold object_combine.
  rewrite (combine_reads argsort distance b p q q' k X preds prevs HC) by auto.
  assert (T : test_distribution b p q k X preds = test_distribution b p q' k X preds) by (unfold test_distribution; now rewrite HC, HK).
  now rewrite T, HD.
Qed.

(** predict reads the number of classes and the other attributes. *)
Lemma predict_reads : forall {Q} argsort distance (c : base_class Q) new p o o' cl cl' k X preds,
  eo_classes o = Some cl -> eo_classes o' = Some cl' -> length cl = length cl' -> eo_members o = eo_members o' ->
  (needs_distributions p = true -> eo_cuts o = eo_cuts o' /\ eo_distributions o = eo_distributions o') ->
  EoQ_object_predict argsort distance c new p o k X preds = EoQ_object_predict argsort distance c new p o' k X preds.
Proof.
  intros Q argsort distance c new p o o' cl cl' k X preds E E' HL HM HN. unfold EoQ_object_predict. rewrite E, E', HL, HM.
  apply obind_same. intros prevs _. destruct (needs_distributions p) eqn:EN.
  - destruct (HN eq_refl) as [-> ->]. destruct (eo_cuts o') as [cuts|]; [|reflexivity]. destruct (eo_distributions o') as [ds|]; [|reflexivity].
    destruct (forallb (fun c0 => (length c0 =? S (ep_bins p))%nat) cuts); [|reflexivity]. now apply object_combine_reads.
  - now apply object_combine_reads.
Qed.

(** ** fit returned *)

Lemma answers_after_fit : forall {S Q} (B : settable S) ppf argsort distance (c : base_class Q) new p k X y preds given g o o' g',
  sorts argsort ->
  EoQ_object_fit B ppf c new p k X y (Val preds) given g o = Some (Val tt, o', g') ->
  exists q, EoQ_fit B ppf (base_of c new) p k X y preds given g = Some (Val q, g') /\
    forall p' k' X' preds', (only_prevalences p' \/ (ep_n p' = ep_n p /\ ep_bins p' = ep_bins p)) ->
      EoQ_object_predict argsort distance c new p' o' k' X' preds' = EoQ_predict argsort distance (base_of c new) p' q k' X' preds'.
Proof.
  intros S Q B ppf argsort distance c new p k X y preds given g o o' g' HS H. apply object_fit_returns in H. destruct H as (q & E & ->).
  exists q. split; [auto|]. intros p' k' X' preds' HP. unfold EoQ_object_predict, EoQ_predict. cbn [object_of eo_classes eo_members eo_cuts eo_distributions].
  pose proof (fitted_usable _ _ _ _ _ _ _ _ _ _ _ _ _ E) as U. rewrite (prevalences_object c new p' q X' preds' U).
  apply obind_same. intros prevs Hp. apply prevalences_length in Hp.
  destruct (needs_distributions p') eqn:EN.
  - destruct HP as [HP|[HN HB]].
    { unfold needs_distributions in EN. destruct HP as [HP|[HP|HP]]; rewrite HP in EN; discriminate. }
    assert (SZ : forallb (fun c0 => (length c0 =? Datatypes.S (ep_bins p'))%nat) (eq_cuts q) = true /\ length (eq_distributions q) = ep_n p).
    { destruct (EoQ_fit_inv _ _ _ _ _ _ _ _ _ _ _ _ E) as (bags & _ & F). destruct c as [fit pr|fit pr| |]; cbn [base_of] in F; try (exfalso; exact F).
      - destruct (fit_without_inv _ _ _ _ _ _ _ F) as (_ & _ & _ & _ & _ & Z & _ & D & _). split; [|now rewrite D, repeat_length].
        apply forallb_forall. intros x Hx. apply Nat.eqb_eq. unfold sized in Z. rewrite Forall_forall in Z. rewrite HB. auto.
      - destruct (described (length (np_unique y)) preds) as [rows|] eqn:ED.
        + destruct (fit_using_rows _ _ _ _ _ _ _ _ F ED) as (Z & _ & D & _). split; [|now rewrite D, repeat_length].
          apply forallb_forall. intros x Hx. apply Nat.eqb_eq. unfold sized in Z. rewrite Forall_forall in Z. rewrite HB. auto.
        + destruct (fit_using_inv _ _ _ _ _ _ _ F) as (_ & _ & _ & columns & _ & _ & HC & HD).
          unfold eoq_prediction_cuts in HC. rewrite ED in HC. inversion HC as [HC']. unfold eoq_prediction_distributions in HD. rewrite ED in HD.
          split.
          * apply forallb_forall. intros x Hx. apply repeat_spec in Hx. subst x. apply Nat.eqb_eq. rewrite repeat_length, HB. lia.
          * destruct (ep_function p), (ep_n p); inversion HD; cbn [repeat length]; rewrite ?repeat_length; reflexivity. }
    destruct SZ as [SZ LD]. rewrite SZ. unfold object_combine.
    match goal with |- obind ?x _ = ?r => replace x with r by (apply combine_reads; auto) end.
    destruct (combine_members argsort distance (base_of c new) p' q k' X' preds' prevs) as [r|e|] eqn:EC; cbn [obind]; auto. rewrite EN.
    cbn [eq_distributions].
    match goal with |- match ?x with _ => _ end = _ => destruct x as [sel|e|] eqn:ES; auto end.
    apply obind_inv in ES. destruct ES as (t & _ & ES). apply (selected_in_range _ _ _ _ _ _ HS) in ES.
    replace (forallb (fun i => (i <? length prevs)%nat) sel) with true; [reflexivity|]. symmetry. apply forallb_forall. intros i Hi.
    apply Nat.ltb_lt. rewrite Forall_forall in ES. specialize (ES i Hi). lia.
  - unfold object_combine. rewrite EN.
    match goal with |- obind ?x _ = ?r => replace x with r by (apply combine_reads; [reflexivity|rewrite EN; discriminate]) end.
    destruct (combine_members argsort distance (base_of c new) p' q k' X' preds' prevs); reflexivity.
Qed.

Lemma returns_again : forall {S Q} (B : settable S) ppf (c : base_class Q) new p k X y preds given g o q g',
  EoQ_fit B ppf (base_of c new) p k X y preds given g = Some (Val q, g') ->
  exists o', EoQ_object_fit B ppf c new p k X y (Val preds) given g o = Some (Val tt, o', g').
Proof. intros S Q B ppf c new p k X y preds given g o q g' H. exists (object_of q). apply object_fit_returns. eauto. Qed.

(** ** Members *)

Lemma from_blank : forall {A} (blank : A) f l i v, nth_error (fst (fill_from blank f l)) i = Some v ->
  (exists a, nth_error l i = Some a /\ v = fst (f a) /\ snd (f a) = Val tt) \/
  (exists a, nth_error l i = Some a /\ v = fst (f a) /\ raises (snd (f a)) /\
     forall j w, (i < j)%nat -> nth_error (fst (fill_from blank f l)) j = Some w -> w = blank) \/
  v = blank.
Proof.
  intros A blank f. induction l as [|a l IH]; intros i v H.
  - destruct i; discriminate.
  - cbn [fill_from] in *. destruct (f a) as [b r] eqn:E. destruct r as [[]|e|].
    + destruct (fill_from blank f l) as [vs r] eqn:Ef. cbn [fst] in *. destruct i as [|i].
      * left. exists a. cbn in H. inversion H. rewrite E. auto.
      * cbn [nth_error] in *. destruct (IH i v H) as [H1|[(a' & H1 & H2 & H3 & H4)|H1]]; auto.
        right; left. exists a'. split; [auto|]. split; [auto|]. split; [auto|]. intros [|j] w Hj Hw; [lia|]. apply (H4 j w); auto; lia.
    + cbn [fst] in *. destruct i as [|i].
      * right; left. exists a. cbn in H. inversion H. rewrite E. split; [auto|]. split; [auto|]. split; [discriminate|].
        intros [|j] w Hj Hw; [lia|]. cbn in Hw. apply nth_error_In, repeat_spec in Hw. auto.
      * right; right. cbn in H. apply nth_error_In, repeat_spec in H. auto.
    + cbn [fst] in *. destruct i as [|i].
      * right; left. exists a. cbn in H. inversion H. rewrite E. split; [auto|]. split; [auto|]. split; [discriminate|].
        intros [|j] w Hj Hw; [lia|]. cbn in Hw. apply nth_error_In, repeat_spec in Hw. auto.
      * right; right. cbn in H. apply nth_error_In, repeat_spec in H. auto.
Qed.

(** The members that a call of fit leaves. *)
Definition members_from {S Q} (c : base_class Q) (f : fit_call S Q) (ms : list (option Q)) : Prop :=
  forall i q, nth_error ms i = Some (Some q) ->
    fitted_copy c f q (Val tt) \/
    (unfinished_copy c f q /\ forall j w, (i < j)%nat -> nth_error ms j = Some w -> w = None).

Lemma chosen_ok : forall idx i preds pi, member_predictions idx i preds = Val pi -> chosen_predictions idx i preds pi.
Proof.
  intros idx i preds pi H. destruct preds as [l|l|l]; cbn [member_predictions] in H; apply omap_inv in H; destruct H as (ps & E & ->).
  - apply (items_inv _ _ 0%Z) in E. destruct E as [F ->]. split; auto.
  - apply (items_inv _ _ []) in E. destruct E as [F ->]. split; auto.
  - apply obind_inv in E. destruct E as (rows & E & EC). apply (items_inv _ _ []) in E. destruct E as [F ->]. cbn.
    rewrite map_map in EC.
    assert (G : forall j, In j idx -> nth_error (nth j l []) i <> None).
    { intros j Hj. destruct (collect_forall _ _ _ EC j Hj) as (v & Hv). apply item_val in Hv. congruence. }
    split.
    + rewrite Forall_forall in *. intros j Hj. split; [auto|]. apply nth_error_Some. auto.
    + f_equal. assert (V : collect (map (fun j => item (nth j l []) i) idx) = Val (map (fun j => nth i (nth j l []) []) idx)).
      { apply collect_val. intros j Hj. apply item_ok. apply nth_error_Some. auto. }
      rewrite V in EC. now inversion EC.
Qed.

Lemma data_without_ok : forall X y bags i Xi yi, data_without X y bags i = Val (Xi, yi) ->
  exists idx, Forall (fun j => (j < length X)%nat /\ (j < length y)%nat) idx /\ Xi = examples X idx /\ yi = bag_labels y idx.
Proof.
  intros X y bags i Xi yi H. unfold data_without in H. apply obind_inv in H. destruct H as (b & _ & H).
  apply obind_inv in H. destruct H as (Xi' & EX & H). apply omap_inv in H. destruct H as (yi' & EY & H). inversion H; subst.
  apply (items_inv _ _ []) in EX. destruct EX as [FX ->]. apply (items_inv _ _ 0%Z) in EY. destruct EY as [FY ->].
  exists (snd b). split; [|split; reflexivity]. rewrite Forall_forall in *. auto.
Qed.

Lemma copies_without : forall {S Q} (fit : Q -> list (list R) -> list Z -> Q * out unit) pr (f : fit_call S Q) bags l,
  members_from (ClassWithout fit pr) f
    (fst (fill_from None (fun i => train_copy (uncurried fit) (fc_new f) (data_without (fc_X f) (fc_y f) bags i)) l)).
Proof.
  intros S Q fit pr f bags l i q H. set (step := fun i => train_copy (uncurried fit) (fc_new f) (data_without (fc_X f) (fc_y f) bags i)) in *.
  assert (ST : forall a q', Some q' = fst (step a) -> (fitted_copy (ClassWithout fit pr) f q' (snd (step a)) \/ q' = fc_new f /\ raises (snd (step a)))).
  { intros a q' E. unfold step, train_copy in *. destruct (data_without (fc_X f) (fc_y f) bags a) as [[Xi yi]|e|] eqn:ED.
    - left. destruct (data_without_ok _ _ _ _ _ _ ED) as (idx & F & -> & ->). exists idx. split; [auto|]. unfold uncurried in *. cbn [fst snd] in *.
      destruct (fit (fc_new f) (examples (fc_X f) idx) (bag_labels (fc_y f) idx)) as [q1 r]. cbn in E |- *. inversion E; subst. reflexivity.
    - right. cbn in *. inversion E. split; [auto|discriminate].
    - right. cbn in *. inversion E. split; [auto|discriminate]. }
  destruct (from_blank None step l i _ H) as [(a & _ & E & R)|[(a & _ & E & R & B)|E]]; [| |discriminate].
  - left. destruct (ST a q E) as [ST'|[_ ST']]; [now rewrite R in ST'|]. now destruct (ST' tt).
  - right. split; [|exact B]. destruct (ST a q E) as [ST'|[ST' _]]; [right; eauto|now left].
Qed.

Lemma data_using_ok : forall ye preds columns i yi pi, data_using ye preds columns i = Val (yi, pi) ->
  exists idx, Forall (fun j => (j < length ye)%nat) idx /\ yi = bag_labels ye idx /\ chosen_predictions idx i preds pi.
Proof.
  intros ye preds columns i yi pi H. unfold data_using in H. apply obind_inv in H. destruct H as (idx & _ & H).
  apply obind_inv in H. destruct H as (yi' & EY & H). apply omap_inv in H. destruct H as (pi' & EP & H). inversion H; subst.
  apply (items_inv _ _ 0%Z) in EY. destruct EY as [FY ->]. exists idx. split; [auto|]. split; [reflexivity|]. now apply chosen_ok.
Qed.

Lemma copies_using : forall {S Q} (fit : Q -> list Z -> predictions -> Q * out unit) pr (f : fit_call S Q) preds columns l,
  fc_preds f = Val preds ->
  members_from (ClassUsing fit pr) f
    (fst (fill_from None (fun i => train_copy (uncurried fit) (fc_new f) (data_using (y_ext (fc_y f) (n_predictions preds)) preds columns i)) l)).
Proof.
  intros S Q fit pr f preds columns l HP i q H. set (ye := y_ext (fc_y f) (n_predictions preds)) in *.
  set (step := fun i => train_copy (uncurried fit) (fc_new f) (data_using ye preds columns i)) in *.
  assert (ST : forall a q', Some q' = fst (step a) -> (fitted_copy (ClassUsing fit pr) f q' (snd (step a)) \/ q' = fc_new f /\ raises (snd (step a)))).
  { intros a q' E. unfold step, train_copy in *. destruct (data_using ye preds columns a) as [[yi pi]|e|] eqn:ED.
    - left. destruct (data_using_ok _ _ _ _ _ _ ED) as (idx & F & -> & CH). exists idx, a, preds, pi. split; [auto|]. cbn zeta. fold ye.
      split; [auto|]. split; [auto|]. unfold uncurried in *. cbn [fst snd] in *.
      destruct (fit (fc_new f) (bag_labels ye idx) pi) as [q1 r]. cbn in E |- *. inversion E; subst. reflexivity.
    - right. cbn in *. inversion E. split; [auto|discriminate].
    - right. cbn in *. inversion E. split; [auto|discriminate]. }
  destruct (from_blank None step l i _ H) as [(a & _ & E & R)|[(a & _ & E & R & B)|E]]; [| |discriminate].
  - left. destruct (ST a q E) as [ST'|[_ ST']]; [now rewrite R in ST'|]. now destruct (ST' tt).
  - right. split; [|exact B]. destruct (ST a q E) as [ST'|[ST' _]]; [right; eauto|now left].
Qed.

(** What one call does to quantifiers_: replaces it, or raises and leaves it. *)
Lemma one_call : forall {S Q} (B : settable S) ppf (c : base_class Q) (f : fit_call S Q) o r o' g',
  run_fit B ppf c f o = Some (r, o', g') ->
  (exists ms, eo_members o' = Some ms /\ members_from c f ms) \/ (raises r /\ eo_members o' = eo_members o).
Proof.
  intros S Q B ppf c f o r o' g' H. unfold run_fit, EoQ_object_fit in H.
  destruct c as [fit pr|fit pr| |].
  - destruct (eoq_bags B (fc_params f) (fc_X f) (fc_y f) (fc_given f) (fc_generator f)) as [[[bags|e|] g1]|]; try discriminate.
    2: { inversion H; subst. right. split; [discriminate|reflexivity]. }
    2: { inversion H; subst. right. split; [discriminate|reflexivity]. }
    inversion H as [H1]. clear H. unfold object_fit_without in H1.
    destruct (fill_attribute_cuts (fc_params f) (fc_attributes f) (fc_X f) (np_unique (fc_y f))) as [cuts [[]|e|]].
    2: { inversion H1; subst. right. split; [discriminate|reflexivity]. }
    2: { inversion H1; subst. right. split; [discriminate|reflexivity]. }
    left. pose proof (copies_without fit pr f bags (seq 0 (ep_n (fc_params f)))) as C.
    destruct (fill_from None (fun i => train_copy (uncurried fit) (fc_new f) (data_without (fc_X f) (fc_y f) bags i)) (seq 0 (ep_n (fc_params f)))) as [ms [[]|e|]].
    + destruct (fill_distributions (fc_params f) (fc_attributes f) cuts (Some (fc_X f))) as [ds r1]. inversion H1; subst. exists ms. auto.
    + inversion H1; subst. exists ms. auto.
    + inversion H1; subst. exists ms. auto.
  - destruct (eoq_bags B (fc_params f) (fc_X f) (fc_y f) (fc_given f) (fc_generator f)) as [[[bags|e|] g1]|]; try discriminate.
    2: { inversion H; subst. right. split; [discriminate|reflexivity]. }
    2: { inversion H; subst. right. split; [discriminate|reflexivity]. }
    inversion H as [H1]. clear H. unfold object_fit_using in H1.
    destruct (fc_preds f) as [preds|e|] eqn:EP; cbn [obind] in H1.
    2: { inversion H1; subst. right. split; [discriminate|reflexivity]. }
    2: { inversion H1; subst. right. split; [discriminate|reflexivity]. }
    destruct (extended_indexes (fc_params f) (fc_y f) (n_predictions preds) bags) as [columns|e|]; cbn [omap obind] in H1.
    2: { inversion H1; subst. right. split; [discriminate|reflexivity]. }
    2: { inversion H1; subst. right. split; [discriminate|reflexivity]. }
    left. pose proof (copies_using fit pr f preds columns (seq 0 (ep_n (fc_params f))) EP) as C.
    set (ye := y_ext (fc_y f) (n_predictions preds)) in *.
    destruct (fill_from None (fun i => train_copy (uncurried fit) (fc_new f) (data_using ye preds columns i)) (seq 0 (ep_n (fc_params f)))) as [ms [[]|e|]].
    + destruct (fill_prediction_cuts ppf (fc_params f) (np_unique (fc_y f)) ye preds) as [cuts [[]|e|]].
      * destruct (fill_distributions (fc_params f) (n_descriptors (length (np_unique (fc_y f)))) cuts (described (length (np_unique (fc_y f))) preds)) as [ds r1].
        inversion H1; subst. exists ms. auto.
      * inversion H1; subst. exists ms. auto.
      * inversion H1; subst. exists ms. auto.
    + inversion H1; subst. exists ms. auto.
    + inversion H1; subst. exists ms. auto.
  - destruct (eoq_bags B (fc_params f) (fc_X f) (fc_y f) (fc_given f) (fc_generator f)) as [[[bags|e|] g1]|]; inversion H; subst;
      right; (split; [discriminate|reflexivity]).
  - inversion H; subst. right. split; [discriminate|reflexivity].
Qed.

Lemma members_origin : forall {S Q} (B : settable S) ppf (c : base_class Q) calls o, EoQ_calls B ppf c calls o ->
  match eo_members o with
  | None => True
  | Some ms => exists later (f : fit_call S Q) r earlier, calls = later ++ (f, r) :: earlier /\ Forall (fun x => raises (snd x)) later /\
      members_from c f ms
  end.
Proof.
  intros S Q B ppf c calls o H. induction H as [|calls o f r o' g' H IH E]; [exact I|].
  destruct (one_call _ _ _ _ _ _ _ _ E) as [(ms & EM & M)|[R EM]].
  - rewrite EM. exists [], f, r, calls. auto.
  - rewrite EM. destruct (eo_members o) as [ms|]; [|exact I]. destruct IH as (later & f0 & r0 & earlier & -> & F & M).
    exists ((f, r) :: later), f0, r0, earlier. split; [reflexivity|]. split; [constructor; auto|auto].
Qed.

(** All the members that are asked answer. *)
Lemma answer_members : forall {Q} argsort distance (c : base_class Q) new p o k X preds r, usable c ->
  EoQ_object_predict argsort distance c new p o k X preds = Val r ->
  forall i, (i < ep_n p)%nat -> exists q, votes o i q.
Proof.
  intros Q argsort distance c new p o k X preds r U H i Hi. unfold EoQ_object_predict in H.
  destruct (eo_classes o) as [classes|]; [|discriminate]. apply obind_inv in H. destruct H as (prevs & E & _).
  unfold object_prevalences in E.
  destruct (collect_forall _ _ _ E i) as (v & Hv); [apply in_seq; lia|]. apply obind_inv in Hv. destruct Hv as (w & Hw & _).
  assert (M : exists m, member_at (eo_members o) i = Val m).
  { destruct c as [fit pr|fit pr| |]; try destruct U; apply obind_inv in Hw; destruct Hw as (m & Hm & _); eauto. }
  destruct M as (m & Hm). unfold member_at in Hm. destruct (eo_members o) as [ms|] eqn:EM; [|discriminate].
  apply obind_inv in Hm. destruct Hm as (x & Hx & Hm). apply item_val in Hx. destruct x as [q|]; [|discriminate].
  exists q, ms. split; [auto|]. inversion Hm; subst. auto.
Qed.

Lemma one_fit_votes : forall {S Q} (B : settable S) ppf argsort distance (c : base_class Q) calls o new p k X preds r, usable c ->
  EoQ_calls B ppf c calls o -> (0 < ep_n p)%nat -> EoQ_object_predict argsort distance c new p o k X preds = Val r ->
  exists later (f : fit_call S Q) end_of_f earlier, calls = later ++ (f, end_of_f) :: earlier /\ Forall (fun x => raises (snd x)) later /\
    forall i, (i < ep_n p)%nat -> exists q, votes o i q /\
      (fitted_copy c f q (Val tt) \/ (Datatypes.S i = ep_n p /\ unfinished_copy c f q)).
Proof.
  intros S Q B ppf argsort distance c calls o new p k X preds r U HC Hn HP.
  pose proof (answer_members _ _ _ _ _ _ _ _ _ _ U HP) as V. pose proof (members_origin _ _ _ _ _ HC) as M.
  destruct (V 0%nat Hn) as (q0 & ms & EM & _). rewrite EM in M. destruct M as (later & f & rf & earlier & EC & F & M).
  exists later, f, rf, earlier. split; [auto|]. split; [auto|]. intros i Hi. destruct (V i Hi) as (q & ms' & EM' & Eq).
  assert (ms' = ms) by congruence. subst ms'.
  exists q. split; [exists ms; auto|]. destruct (M i q Eq) as [L|[L N]]; [auto|]. right. split; [|auto].
  destruct (Nat.eq_dec (Datatypes.S i) (ep_n p)) as [|Hne]; [auto|]. exfalso.
  destruct (V (Datatypes.S i)) as (q' & ms' & EM2 & Eq'); [lia|]. assert (ms' = ms) by congruence. subst ms'.
  specialize (N (Datatypes.S i) _ ltac:(lia) Eq'). discriminate.
Qed.
