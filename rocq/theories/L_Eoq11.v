(** * EoQ objects: fits that raise early, late or at the end; other numbers of members (C131). *)

From Coq Require Import Reals List ZArith Lra Lia Permutation Bool.
From Verif Require Import Num Spec L_Num M_Baselines L_Baselines M_Metrics M_Bags Spec_Bags M_Match Spec_Match L_Match L_Match2 L_Match3 L_Match6 L_Match7
  L_Match12 M_Reg Spec_Reg L_Reg L_Reg2 M_Eoq Spec_Eoq L_Eoq L_Eoq2 L_Eoq3 L_Eoq4 L_Eoq5 L_Eoq6 L_Eoq7 L_Eoq8 M_Fit3 L_Fit7 Spec_Fit M_Eoq2
  Spec_Eoq2 L_Eoq9 L_Eoq10.
Import ListNotations.
Open Scope R_scope.

(** ** fit raises before it trains a quantifier *)

Lemma early_state : forall {S Q} (B : settable S) ppf (c : base_class Q) new p k X y preds given g o,
  raises_early B c p X y preds given g ->
  exists r o1 g1, EoQ_object_fit B ppf c new p k X y preds given g o = Some (r, o1, g1) /\ raises r /\
    eo_classes o1 = Some (np_unique y) /\ eo_members o1 = eo_members o /\ eo_cuts o1 = eo_cuts o /\ eo_distributions o1 = eo_distributions o.
Proof.
  intros S Q B ppf c new p k X y preds given g o [(U & -> & e & g' & E)|((fit & pr & ->) & (e & ->) & HG)]; unfold EoQ_object_fit.
  - unfold eoq_bags. rewrite E. destruct c as [fit pr|fit pr| |]; try destruct U; do 3 eexists; (split; [reflexivity|]);
      (split; [discriminate|]); auto.
  - destruct given as [bags|]; cbn [eoq_bags].
    + do 3 eexists. split; [reflexivity|]. split; [discriminate|]. auto.
    + destruct (HG eq_refl) as (bags & g' & E). rewrite E. do 3 eexists. split; [reflexivity|]. split; [discriminate|]. auto.
Qed.

Lemma first_fails : forall {A} (f : nat -> out A) n e, (0 < n)%nat -> f 0%nat = Err e -> collect (map f (seq 0 n)) = Err e.
Proof. intros A f [|n] e Hn H; [lia|]. cbn [seq map collect]. now rewrite H. Qed.

Lemma early_answers : forall {S Q} (B : settable S) ppf argsort distance (c : base_class Q) new0 p0 k0 X0 y0 preds0 given0 g0 o0 o g'
    new p k X y preds given g,
  EoQ_object_fit B ppf c new0 p0 k0 X0 y0 (Val preds0) given0 g0 o0 = Some (Val tt, o, g') ->
  raises_early B c p X y preds given g ->
  exists r o1 g1, EoQ_object_fit B ppf c new p k X y preds given g o = Some (r, o1, g1) /\ raises r /\
    (length (np_unique y) = length (np_unique y0) -> forall new' p' k' X' preds',
       EoQ_object_predict argsort distance c new' p' o1 k' X' preds' = EoQ_object_predict argsort distance c new' p' o k' X' preds') /\
    (length (np_unique y) <> length (np_unique y0) -> length (np_unique y0) <> 1%nat -> exists q,
       EoQ_fit B ppf (base_of c new0) p0 k0 X0 y0 preds0 given0 g0 = Some (Val q, g') /\
       forall new' p' k' X' preds' answers, members_answer (base_of c new0) q X' preds' answers ->
         Forall (fun a => length a = length (np_unique y0)) answers -> (0 < ep_n p' <= ep_n p0)%nat ->
         EoQ_object_predict argsort distance c new' p' o1 k' X' preds' = Err ValueError).
Proof.
  intros S Q B ppf argsort distance c new0 p0 k0 X0 y0 preds0 given0 g0 o0 o g' new p k X y preds given g HF HE.
  destruct (early_state B ppf c new p k X y preds given g o HE) as (r & o1 & g1 & E & R & HC & HM & HK & HD).
  apply object_fit_returns in HF. destruct HF as (q & EF & ->).
  destruct (fitted_size _ _ _ _ _ _ _ _ _ _ _ _ EF) as [LQ CQ].
  exists r, o1, g1. split; [auto|]. split; [auto|]. split.
  - intros HL new' p' k' X' preds'. apply (predict_reads _ _ _ _ _ _ _ (np_unique y) (np_unique y0)); auto. cbn. now rewrite CQ.
  - intros HL H1. exists q. split; [auto|]. intros new' p' k' X' preds' answers [LA HA] HR Hn.
    unfold EoQ_object_predict. rewrite HC. unfold object_prevalences.
    rewrite (first_fails _ (ep_n p') ValueError); [reflexivity|lia|].
    rewrite HM. cbn [object_of eo_members member_at].
    destruct (nth_error (eq_quantifiers q) 0) as [m|] eqn:Em; [|apply nth_error_None in Em; lia].
    assert (IM : item (map Some (eq_quantifiers q)) 0 = Val (Some m)) by (apply item_val; now apply map_nth_error).
    assert (SR : store_row (length (np_unique y)) (nth 0 answers []) = Err ValueError).
    { rewrite Forall_forall in HR. assert (L0 : length (nth 0 answers []) = length (np_unique y0)) by (apply HR, nth_In; lia).
      unfold store_row. destruct (Nat.eqb_spec (length (nth 0 answers [])) (length (np_unique y))) as [Heq|_]; [congruence|].
      destruct (nth 0 answers []) as [|x [|x' t]]; auto. cbn in L0. congruence. }
    pose proof (HA 0%nat m Em) as HA0. pose proof (fitted_usable _ _ _ _ _ _ _ _ _ _ _ _ _ EF) as U.
    destruct c as [fit pr|fit pr| |]; cbn [base_of] in HA0; try destruct U; rewrite IM; cbn [obind].
    + rewrite HA0. exact SR.
    + destruct HA0 as (pi & P1 & P2). rewrite (predictions_for_test _ _ _ P1). cbn [obind]. rewrite P2. exact SR.
Qed.

(** ** fit raises while it trains the quantifiers *)

Lemma gap : forall {A} (blank : A) f n i, (i < n)%nat -> raises (snd (f i)) ->
  raises (snd (fill_from blank f (seq 0 n))) /\
  forall j w, (i < j)%nat -> nth_error (fst (fill_from blank f (seq 0 n))) j = Some w -> w = blank.
Proof.
  intros A blank f n i Hi HR.
  enough (G : forall s, (s <= i < s + n)%nat -> raises (snd (fill_from blank f (seq s n))) /\
            forall j w, (i - s < j)%nat -> nth_error (fst (fill_from blank f (seq s n))) j = Some w -> w = blank).
  { destruct (G 0%nat) as [G1 G2]; [lia|]. split; [auto|]. intros j w Hj. apply G2. lia. }
  clear Hi. induction n as [|n IH]; intros s Hs; [lia|]. cbn [seq fill_from]. destruct (f s) as [v r] eqn:E. destruct r as [[]|e|].
  - assert (s <> i) by (intros ->; rewrite E in HR; now destruct (HR tt)).
    destruct (IH (S s)) as [G1 G2]; [lia|]. destruct (fill_from blank f (seq (S s) n)) as [vs r]. cbn [fst snd] in *. split; [auto|].
    intros [|j] w Hj Hw; [lia|]. apply (G2 j w); [lia|auto].
  - cbn [fst snd]. split; [discriminate|]. intros [|j] w Hj Hw; [lia|]. cbn in Hw. apply nth_error_In, repeat_spec in Hw. auto.
  - cbn [fst snd]. split; [discriminate|]. intros [|j] w Hj Hw; [lia|]. cbn in Hw. apply nth_error_In, repeat_spec in Hw. auto.
Qed.

Lemma gap_silences : forall {Q} argsort distance (c : base_class Q) new p o ms i k X preds, usable c ->
  eo_members o = Some ms -> (forall j w, (i < j)%nat -> nth_error ms j = Some w -> w = None) -> (S i < ep_n p)%nat ->
  raises (EoQ_object_predict argsort distance c new p o k X preds).
Proof.
  intros Q argsort distance c new p o ms i k X preds U EM HB Hn r HP.
  destruct (answer_members _ _ _ _ _ _ _ _ _ _ U HP (S i) Hn) as (q & ms' & EM' & Eq). assert (ms' = ms) by congruence. subst ms'.
  specialize (HB (S i) _ ltac:(lia) Eq). discriminate.
Qed.

Lemma unfinished_using : forall {S Q} (B : settable S) ppf argsort distance fit predict (new : Q) p k X y preds bags g o r o' g' i b,
  EoQ_object_fit B ppf (ClassUsing fit predict) new p k X y (Val preds) (Some bags) g o = Some (r, o', g') ->
  n_predictions preds = length y -> (i < ep_n p)%nat -> nth_error bags i = Some b ->
  (forall pi, chosen_predictions (snd b) i preds pi -> raises (snd (fit new (bag_labels y (snd b)) pi))) ->
  raises r /\ forall new' p' k' X' preds', (Datatypes.S i < ep_n p')%nat ->
    raises (EoQ_object_predict argsort distance (ClassUsing fit predict) new' p' o' k' X' preds').
Proof.
  intros S Q B ppf argsort distance fit predict new p k X y preds bags g o r o' g' i b H HN Hi Hb HR.
  unfold EoQ_object_fit in H. cbn [eoq_bags] in H. inversion H as [H1]. clear H. unfold object_fit_using in H1. cbn [obind] in H1.
  unfold extended_indexes in H1. rewrite HN, Nat.eqb_refl in H1. cbn [omap obind] in H1. rewrite HN in H1.
  assert (EY : y_ext y (length y) = y) by (unfold y_ext; now rewrite Nat.eqb_refl). rewrite EY in H1.
  set (step := fun i0 => train_copy (uncurried fit) new (data_using y preds (map snd bags) i0)) in *.
  assert (RS : raises (snd (step i))).
  { unfold step, train_copy. destruct (data_using y preds (map snd bags) i) as [[yi pi]|e|] eqn:ED; try discriminate.
    unfold data_using in ED. rewrite (proj2 (item_val _ _ _) (map_nth_error snd i bags Hb)) in ED. cbn [obind] in ED.
    apply obind_inv in ED. destruct ED as (yi' & EYi & ED). apply omap_inv in ED. destruct ED as (pi' & EP & ED). inversion ED; subst yi' pi'.
    apply (items_inv _ _ 0%Z) in EYi. destruct EYi as [_ ->]. specialize (HR pi (chosen_ok _ _ _ _ EP)). unfold uncurried. cbn [fst snd].
    unfold bag_labels in HR. destruct (fit new (map (fun i0 => nth i0 y 0%Z) (snd b)) pi). exact HR. }
  destruct (gap None step (ep_n p) i Hi RS) as [G1 G2].
  destruct (fill_from None step (seq 0 (ep_n p))) as [ms r1]. cbn [fst snd] in *.
  destruct r1 as [[]|e|]; [now destruct (G1 tt)| |]; inversion H1; subst; (split; [discriminate|]); intros new' p' k' X' preds' Hn;
    apply (gap_silences _ _ _ _ _ _ ms i); auto; exact I.
Qed.

Lemma hundred_cuts : forall p k X y, ep_bins p = 100%nat -> X <> [] -> exists cuts, fill_attribute_cuts p k X (np_unique y) = (cuts, Val tt).
Proof.
  intros p k X y HB HX. assert (E : exists cuts, eoq_attribute_cuts p k X (np_unique y) = Val cuts).
  { unfold eoq_attribute_cuts. apply collect_all. intros a _.
    destruct (equal_width_cuts (fun x => x) (col a X) [] (np_unique y) (ep_bins p) None) as (c & E & _).
    - lia.
    - destruct X; [congruence|discriminate].
    - rewrite E. cbn [obind]. destruct (cuts_length _ _ _ _ _ _ _ _ E) as [L _]. rewrite L, HB. cbn. eauto. }
  destruct E as (cuts & E). exists cuts. now apply attribute_cuts_fill.
Qed.

Lemma unfinished_without : forall {S Q} (B : settable S) ppf argsort distance fit predict (new : Q) p k X y preds bags g o r o' g' i b,
  EoQ_object_fit B ppf (ClassWithout fit predict) new p k X y preds (Some bags) g o = Some (r, o', g') ->
  ep_bins p = 100%nat -> X <> [] -> (i < ep_n p)%nat -> nth_error bags i = Some b ->
  raises (snd (fit new (examples X (snd b)) (bag_labels y (snd b)))) ->
  raises r /\ forall new' p' k' X' preds', (Datatypes.S i < ep_n p')%nat ->
    raises (EoQ_object_predict argsort distance (ClassWithout fit predict) new' p' o' k' X' preds').
Proof.
  intros S Q B ppf argsort distance fit predict new p k X y preds bags g o r o' g' i b H HB HX Hi Hb HR.
  unfold EoQ_object_fit in H. cbn [eoq_bags] in H. inversion H as [H1]. clear H. unfold object_fit_without in H1.
  destruct (hundred_cuts p k X y HB HX) as (cuts & EC). rewrite EC in H1.
  set (step := fun i0 => train_copy (uncurried fit) new (data_without X y bags i0)) in *.
  assert (RS : raises (snd (step i))).
  { unfold step, train_copy. destruct (data_without X y bags i) as [[Xi yi]|e|] eqn:ED; try discriminate.
    unfold data_without in ED. rewrite (proj2 (item_val _ _ _) Hb) in ED. cbn [obind] in ED.
    apply obind_inv in ED. destruct ED as (Xi' & EX & ED). apply omap_inv in ED. destruct ED as (yi' & EY & ED). inversion ED; subst Xi' yi'.
    apply (items_inv _ _ []) in EX. destruct EX as [_ ->]. apply (items_inv _ _ 0%Z) in EY. destruct EY as [_ ->]. unfold uncurried. cbn [fst snd].
    unfold examples, bag_labels in HR. destruct (fit new _ _). exact HR. }
  destruct (gap None step (ep_n p) i Hi RS) as [G1 G2].
  destruct (fill_from None step (seq 0 (ep_n p))) as [ms r1]. cbn [fst snd] in *.
  destruct r1 as [[]|e|]; [now destruct (G1 tt)| |]; inversion H1; subst; (split; [discriminate|]); intros new' p' k' X' preds' Hn;
    apply (gap_silences _ _ _ _ _ _ ms i); auto; exact I.
Qed.

(** The last copy may vote: it was fitted before with something else, and the last bag has an index that does not exist. *)
Definition wrong_bags : list bag := [([1; 0], [0; 0]%nat); ([0; 1], [1; 5]%nat)].

Lemma last_votes : forall ppf argsort distance, exists o,
  EoQ_object_fit no_generator ppf (prior_class 2) [1/2; 1/2] (ep2 CMean 1) 0 [] [0; 1]%Z (Val (Crisp [0; 1]%Z)) (Some wrong_bags) tt EoQ_new =
    Some (Err IndexError, o, tt) /\
  EoQ_object_predict argsort distance (prior_class 2) [1/2; 1/2] (ep2 CMean 1) o 0 [] (Crisp [0]%Z) = Val (Vector [3/4; 1/4]).
Proof.
  intros ppf argsort distance. eexists. split.
  - unfold EoQ_object_fit, prior_class, object_fit_using. cbn [eoq_bags obind n_predictions].
    unfold extended_indexes. cbn [length Nat.eqb omap obind wrong_bags map snd ep2 ep_n seq fill_from].
    unfold train_copy, data_using, uncurried. cbn [item nth_error obind items map collect omap member_predictions fst snd y_ext length Nat.eqb].
    reflexivity.
  - unfold EoQ_object_predict. cbn [eo_classes]. change (length (np_unique [0; 1]%Z)) with 2%nat.
    unfold object_prevalences, prior_class. cbn [ep2 ep_n seq map member_at eo_members item nth_error obind test_predictions collect omap].
    unfold store_row, tabulate. cbn [length map seq Nat.eqb obind omap collect].
    unfold object_combine, combine_members. cbn [needs_distributions ep2 ep_combination eq_classes].
    change (length (np_unique [0; 1]%Z)) with 2%nat. cbn [fst]. rewrite !fraction_same. cbn [Z.of_nat Pos.of_succ_nat].
    destruct (Z.eq_dec 0 0) as [_|]; [|congruence]. destruct (Z.eq_dec 0 1) as [|_]; [congruence|].
    unfold mean_of_rows, normalised, col_means, col, rmean. cbn [map seq nth rsum length fold_right INR].
    destruct (Req_EM_T _ 0) as [H|H]; [exfalso; unfold rsum in H; cbn in H; lra|].
    unfold omap, obind, vdiv, rsum. cbn [map fold_right]. f_equal. f_equal. f_equal; [field|f_equal; field]; lra.
Qed.

(** ** fit raises because of the cumulative distributions *)

Lemma cdf_row : forall nb cuts rows v, cuts <> [] -> fill_distribution PDF nb cuts rows = (v, Val tt) ->
  snd (fill_distribution CDF nb cuts rows) = Err AxisError.
Proof.
  intros nb cuts rows v HC H. unfold fill_distribution in *. destruct rows as [|r0 rows]; [inversion H|].
  destruct cuts as [|c cuts]; [congruence|]. cbn [length seq fill_from] in *.
  destruct (histogram (col 0 (r0 :: rows)) (nth 0 (c :: cuts) [])) as [h|e|]; [reflexivity|inversion H..].
Qed.

Lemma cdf_rows : forall p d cuts rows ds, (0 < ep_n p)%nat -> (match rows with Some _ => cuts <> [] | None => True end) ->
  fill_distributions (with_function PDF p) d cuts rows = (ds, Val tt) ->
  snd (fill_distributions (with_function CDF p) d cuts rows) = Err AxisError.
Proof.
  intros p d cuts rows ds Hn HC H. unfold fill_distributions in *. cbn [with_function ep_n ep_bins ep_function] in *.
  destruct (ep_n p) as [|n]; [lia|]. cbn [seq fill_from] in *. destruct rows as [rows|].
  - destruct (fill_distribution PDF (ep_bins p) cuts rows) as [v [[]|e|]] eqn:E; try (inversion H; fail).
    pose proof (cdf_row _ _ _ _ HC E) as C. destruct (fill_distribution CDF (ep_bins p) cuts rows) as [w r]. cbn in C. subst r. reflexivity.
  - reflexivity.
Qed.

Lemma fill_cuts_length : forall ppf p y ye preds cuts, y <> [] ->
  fill_prediction_cuts ppf p (np_unique y) ye preds = (cuts, Val tt) ->
  match described (length (np_unique y)) preds with Some _ => cuts <> [] | None => True end.
Proof.
  intros ppf p y ye preds cuts HY H. destruct (described (length (np_unique y)) preds) as [rows|] eqn:E; [|exact I].
  apply prediction_cuts_fill in H. destruct (prediction_cuts_inv _ _ _ _ _ _ _ E H) as [_ L]. intros ->. cbn in L.
  assert (0 < length (np_unique y))%nat.
  { destruct y as [|z y]; [congruence|]. destruct (np_unique (z :: y)) eqn:EU; [|cbn; lia].
    assert (I : In z (np_unique (z :: y))) by (apply np_unique_in; now left). rewrite EU in I. destruct I. }
  unfold n_descriptors in L. destruct (length (np_unique y)) as [|[|[|n]]]; cbn in L; lia.
Qed.

Lemma cdf_still_answers : forall {S Q} (B : settable S) ppf argsort distance (c : base_class Q) new p k X y preds given g o o1 g',
  (0 < ep_n p)%nat -> (0 < k)%nat -> y <> [] ->
  EoQ_object_fit B ppf c new (with_function PDF p) k X y (Val preds) given g o = Some (Val tt, o1, g') ->
  exists o2, EoQ_object_fit B ppf c new (with_function CDF p) k X y (Val preds) given g o = Some (Err AxisError, o2, g') /\
    forall new' p' k' X' preds', only_prevalences p' ->
      EoQ_object_predict argsort distance c new' p' o2 k' X' preds' = EoQ_object_predict argsort distance c new' p' o1 k' X' preds'.
Proof.
  intros S Q B ppf argsort distance c new p k X y preds given g o o1 g' Hn Hk HY H.
  assert (P : forall o2, eo_classes o2 = eo_classes o1 -> eo_classes o1 = Some (np_unique y) -> eo_members o2 = eo_members o1 ->
     forall new' p' k' X' preds', only_prevalences p' ->
      EoQ_object_predict argsort distance c new' p' o2 k' X' preds' = EoQ_object_predict argsort distance c new' p' o1 k' X' preds').
  { intros o2 E1 E2 E3 new' p' k' X' preds' HP. apply (predict_reads _ _ _ _ _ _ _ (np_unique y) (np_unique y)); auto; try congruence.
    intros EN. unfold needs_distributions in EN. destruct HP as [HP|[HP|HP]]; rewrite HP in EN; discriminate. }
  unfold EoQ_object_fit in *.
  change (eoq_bags B (with_function CDF p) X y given g) with (eoq_bags B (with_function PDF p) X y given g).
  destruct (eoq_bags B (with_function PDF p) X y given g) as [[[bags|e|] g1]|]; try (destruct c; inversion H; fail).
  destruct c as [fit pr|fit pr| |]; inversion H as [H1]; clear H.
  - unfold object_fit_without in *.
    change (fill_attribute_cuts (with_function CDF p) k X (np_unique y)) with (fill_attribute_cuts (with_function PDF p) k X (np_unique y)).
    cbn [with_function ep_n] in *.
    destruct (fill_attribute_cuts (with_function PDF p) k X (np_unique y)) as [cuts [[]|e|]] eqn:EC; try (inversion H1; fail).
    destruct (fill_from None (fun i => train_copy (uncurried fit) new (data_without X y bags i)) (seq 0 (ep_n p))) as [ms [[]|e|]]; try (inversion H1; fail).
    assert (HC : cuts <> []).
    { apply attribute_cuts_fill in EC. destruct (attribute_cuts_inv _ _ _ _ _ EC) as [L _]. intros ->. cbn in L. lia. }
    destruct (fill_distributions (with_function PDF p) k cuts (Some X)) as [ds r] eqn:ED. inversion H1; subst r.
    pose proof (cdf_rows p k cuts (Some X) ds Hn HC ED) as CR.
    destruct (fill_distributions (with_function CDF p) k cuts (Some X)) as [ds2 r2]. cbn in CR. subst r2.
    eexists. split; [reflexivity|]. intros. subst o1. apply P; auto.
  - unfold object_fit_using in *. cbn [obind] in *.
    change (extended_indexes (with_function CDF p) y (n_predictions preds) bags) with (extended_indexes (with_function PDF p) y (n_predictions preds) bags).
    destruct (extended_indexes (with_function PDF p) y (n_predictions preds) bags) as [columns|e|]; cbn [omap obind] in *; try (inversion H1; fail).
    set (ye := y_ext y (n_predictions preds)) in *. cbn [with_function ep_n] in *.
    destruct (fill_from None (fun i => train_copy (uncurried fit) new (data_using ye preds columns i)) (seq 0 (ep_n p))) as [ms [[]|e|]]; try (inversion H1; fail).
    change (fill_prediction_cuts ppf (with_function CDF p) (np_unique y) ye preds) with (fill_prediction_cuts ppf (with_function PDF p) (np_unique y) ye preds).
    destruct (fill_prediction_cuts ppf (with_function PDF p) (np_unique y) ye preds) as [cuts [[]|e|]] eqn:EC; try (inversion H1; fail).
    pose proof (fill_cuts_length _ _ _ _ _ _ HY EC) as HC.
    destruct (fill_distributions (with_function PDF p) (n_descriptors (length (np_unique y))) cuts (described (length (np_unique y)) preds)) as [ds r] eqn:ED.
    inversion H1; subst r. pose proof (cdf_rows p _ cuts _ ds Hn HC ED) as CR.
    destruct (fill_distributions (with_function CDF p) (n_descriptors (length (np_unique y))) cuts (described (length (np_unique y)) preds)) as [ds2 r2].
    cbn in CR. subst r2. eexists. split; [reflexivity|]. intros. subst o1. apply P; auto.
Qed.

(** ** Another n_quantifiers *)

Lemma nth_error_firstn_lt : forall {A} n (l : list A) i, (i < n)%nat -> nth_error (firstn n l) i = nth_error l i.
Proof. induction n as [|n IH]; intros [|a l] [|i] Hi; cbn; auto; try lia. apply IH. lia. Qed.

Lemma nth_firstn_lt : forall {A} n (l : list A) i d, (i < n)%nat -> nth i (firstn n l) d = nth i l d.
Proof. induction n as [|n IH]; intros [|a l] [|i] d Hi; cbn; auto; try lia. apply IH. lia. Qed.

Lemma more_members : forall {S Q} (B : settable S) ppf argsort distance (c : base_class Q) new p k X y preds given g o o' g' new' p' k' X' preds',
  EoQ_object_fit B ppf c new p k X y (Val preds) given g o = Some (Val tt, o', g') -> (ep_n p < ep_n p')%nat ->
  raises (EoQ_object_predict argsort distance c new' p' o' k' X' preds').
Proof.
  intros S Q B ppf argsort distance c new p k X y preds given g o o' g' new' p' k' X' preds' H Hn r HP.
  apply object_fit_returns in H. destruct H as (q & E & ->). pose proof (fitted_usable _ _ _ _ _ _ _ _ _ _ _ _ _ E) as U.
  destruct (answer_members _ _ _ _ _ _ _ _ _ _ U HP (ep_n p) Hn) as (m & ms & EM & Em). cbn in EM. inversion EM; subst ms.
  destruct (fitted_size _ _ _ _ _ _ _ _ _ _ _ _ E) as [LQ _].
  assert (N : nth_error (map Some (eq_quantifiers q)) (ep_n p) = None) by (apply nth_error_None; rewrite map_length; lia). congruence.
Qed.

Lemma fewer_members : forall {S Q} (B : settable S) ppf argsort distance (c : base_class Q) new p k X y preds given g o o' g',
  sorts argsort -> EoQ_object_fit B ppf c new p k X y (Val preds) given g o = Some (Val tt, o', g') ->
  exists q, EoQ_fit B ppf (base_of c new) p k X y preds given g = Some (Val q, g') /\
    forall p' k' X' preds' answers, ep_combination p' = CMean -> (0 < ep_n p' <= ep_n p)%nat ->
      members_answer (base_of c new) q X' preds' answers -> distributions (length (np_unique y)) answers ->
      exists r, EoQ_object_predict argsort distance c new p' o' k' X' preds' = Val (Vector r) /\
        average_answer (length (np_unique y)) answers (seq 0 (ep_n p')) r.
Proof.
  intros S Q B ppf argsort distance c new p k X y preds given g o o' g' HS H.
  destruct (answers_after_fit B ppf argsort distance c new p k X y preds given g o o' g' HS H) as (q & E & A).
  exists q. split; [auto|]. intros p' k' X' preds' answers HM Hn HA HD. rewrite A by (left; left; auto).
  destruct (fitted_size _ _ _ _ _ _ _ _ _ _ _ _ E) as [LQ CQ]. destruct HA as [LA HA].
  set (q' := {| eq_classes := eq_classes q; eq_bags := []; eq_cuts := []; eq_quantifiers := firstn (ep_n p') (eq_quantifiers q); eq_distributions := [] |}).
  assert (EP : member_prevalences (base_of c new) p' q X' preds' = member_prevalences (base_of c new) p' q' X' preds').
  { unfold member_prevalences. apply collect_ext. intros i Hi. apply in_seq in Hi. cbn [q' eq_quantifiers eq_classes].
    replace (item (firstn (ep_n p') (eq_quantifiers q)) i) with (item (eq_quantifiers q) i); [reflexivity|].
    unfold item. now rewrite nth_error_firstn_lt by lia. }
  assert (EE : EoQ_predict argsort distance (base_of c new) p' q k' X' preds' = EoQ_predict argsort distance (base_of c new) p' q' k' X' preds').
  { unfold EoQ_predict. rewrite EP. apply obind_same. intros prevs _. apply combine_reads; [reflexivity|].
    unfold needs_distributions. rewrite HM. discriminate. }
  rewrite EE.
  destruct (mean_strategy argsort distance (base_of c new) p' q' k' X' preds' (firstn (ep_n p') answers)) as (r & ER & [AV1 AV2] & _); auto.
  - cbn. rewrite firstn_length. lia.
  - lia.
  - split; [cbn; rewrite !firstn_length; lia|]. intros i m Hm. cbn [q' eq_quantifiers] in Hm.
    assert (Hi : (i < ep_n p')%nat).
    { assert (nth_error (firstn (ep_n p') (eq_quantifiers q)) i <> None) by congruence. apply nth_error_Some in H0. rewrite firstn_length in H0. lia. }
    rewrite nth_error_firstn_lt in Hm by auto. specialize (HA i m Hm).
    replace (nth i (firstn (ep_n p') answers) []) with (nth i answers []); [exact HA|].
    symmetry. apply nth_firstn_lt. lia.
  - cbn [q' eq_classes]. rewrite CQ. unfold distributions in *. rewrite <- (firstn_skipn (ep_n p') answers) in HD. apply Forall_app in HD. apply HD.
  - exists r. split; [auto|]. cbn [q' eq_classes] in AV1, AV2. rewrite CQ in AV1, AV2. split; [auto|]. intros c0 Hc. rewrite AV2 by auto.
    f_equal. apply map_ext_in. intros i Hi. apply in_seq in Hi. now rewrite nth_firstn_lt by lia.
Qed.
