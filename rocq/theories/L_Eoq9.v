(** * EoQ objects: a call of fit that returns (C131). *)

From Coq Require Import Reals List ZArith Lra Lia Permutation Bool.
From Verif Require Import Num Spec L_Num M_Baselines M_Metrics M_Bags Spec_Bags M_Match Spec_Match L_Match L_Match2 L_Match3 L_Match6
  M_Reg Spec_Reg L_Reg L_Reg2 M_Eoq Spec_Eoq L_Eoq L_Eoq2 L_Eoq3 M_Fit3 L_Fit7 Spec_Fit M_Eoq2 Spec_Eoq2.
Import ListNotations.
Open Scope R_scope.

Lemma from_val : forall {A} (blank : A) f l vs, fill_from blank f l = (vs, Val tt) <-> map f l = map (fun v => (v, Val tt)) vs.
Proof.
  intros A blank f. induction l as [|i l IH]; intros vs.
  - cbn. split; intros H; [inversion H; reflexivity|]. destruct vs; [reflexivity|discriminate].
  - cbn [fill_from map]. destruct (f i) as [v [[]|e|]] eqn:E.
    + destruct (fill_from blank f l) as [ws r] eqn:Ef. split; intros H.
      * inversion H; subst. cbn. f_equal. now apply IH.
      * destruct vs as [|v' vs]; [discriminate|]. cbn in H. inversion H; subst v'. apply IH in H2. inversion H2; subst. reflexivity.
    + split; intros H; [inversion H|]. destruct vs; discriminate.
    + split; intros H; [inversion H|]. destruct vs; discriminate.
Qed.

Lemma from_length : forall {A} (blank : A) f l, length (fst (fill_from blank f l)) = length l.
Proof.
  intros A blank f. induction l as [|i l IH]; [reflexivity|]. cbn [fill_from]. destruct (f i) as [v [[]|e|]].
  - destruct (fill_from blank f l) as [ws r]. cbn in IH |- *. now rewrite IH.
  - cbn. now rewrite repeat_length.
  - cbn. now rewrite repeat_length.
Qed.

(** What a copy becomes when its fit returns. *)
Definition returned {Q} (x : Q * out unit) : out Q := let (q, r) := x in omap (fun _ => q) r.

Lemma copies_val : forall {Q D} (fit : Q -> D -> Q * out unit) new (d : nat -> out D) l ms,
  fill_from None (fun i => train_copy fit new (d i)) l = (ms, Val tt) <->
  exists qs, ms = map Some qs /\ collect (map (fun i => obind (d i) (fun x => returned (fit new x))) l) = Val qs.
Proof.
  intros Q D fit new d. induction l as [|i l IH]; intros ms.
  - cbn. split; intros H.
    + inversion H; subst. exists []. auto.
    + destruct H as (qs & -> & E). inversion E; subst. reflexivity.
  - cbn [fill_from map collect]. unfold train_copy at 1. destruct (d i) as [x|e|]; cbn [obind].
    + destruct (fit new x) as [q [[]|e|]]; cbn [returned omap obind].
      * destruct (fill_from None (fun i => train_copy fit new (d i)) l) as [ws r] eqn:Ef. split; intros H.
        -- inversion H; subst. destruct (proj1 (IH ws) eq_refl) as (qs & -> & E). exists (q :: qs). split; [reflexivity|].
           rewrite E. reflexivity.
        -- destruct H as (qs & -> & E). apply omap_inv in E. destruct E as (us & Ec & ->). assert (P : (ws, r) = (map Some us, Val tt)) by (apply IH; eauto). inversion P; subst. reflexivity.
      * split; intros H; [inversion H|destruct H as (qs & _ & E); discriminate].
      * split; intros H; [inversion H|destruct H as (qs & _ & E); discriminate].
    + split; intros H; [inversion H|destruct H as (qs & _ & E); discriminate].
    + split; intros H; [inversion H|destruct H as (qs & _ & E); discriminate].
Qed.

Lemma collect_ext : forall {A B} (f g : A -> out B) l, (forall a, In a l -> f a = g a) -> collect (map f l) = collect (map g l).
Proof. intros A B f g l H. f_equal. now apply map_ext_in. Qed.

Lemma concat_map_hist : forall (f : list nat -> list R) hs, concat (map f hs) = concat (map (fun h => f h) hs).
Proof. reflexivity. Qed.

(** One row of distributions_. *)
Lemma distribution_fill : forall kind nb cuts sample v,
  fill_distribution kind nb cuts sample = (v, Val tt) <-> eoq_distribution kind cuts sample = Val v.
Proof.
  intros kind nb cuts sample v. unfold fill_distribution. destruct sample as [|s0 sample].
  - split; intros H; [inversion H|]. unfold eoq_distribution in H. destruct kind, cuts; discriminate.
  - set (sm := s0 :: sample). set (blk := fun i => match histogram (col i sm) (nth i cuts []) with
        | Val h => (vdiv (map INR h) (INR (length sm)), match kind with PDF => Val tt | CDF => Err AxisError end)
        | Err e => (repeat 0 nb, Err e)
        | NotANumber => (repeat 0 nb, NotANumber)
        end).
    assert (D : forall w, describe cuts (length sm) sm = Val w <->
              exists hs, collect (map (fun i => histogram (col i sm) (nth i cuts [])) (seq 0 (length cuts))) = Val hs /\
                w = concat (map (fun h => vdiv (map INR h) (INR (length sm))) hs)).
    { assert (EQ : collect (map (fun dc => histogram (col (fst dc) sm) (snd dc)) (combine (seq 0 (length cuts)) cuts)) =
                   collect (map (fun i => histogram (col i sm) (nth i cuts [])) (seq 0 (length cuts)))).
      { f_equal. apply (nth_ext _ _ NotANumber NotANumber); [rewrite !map_length, combine_length, seq_length; lia|].
        intros i Hi. rewrite map_length, combine_length, seq_length in Hi.
        rewrite (nth_indep (map (fun i => histogram (col i sm) (nth i cuts [])) _) NotANumber
                  ((fun i => histogram (col i sm) (nth i cuts [])) 0%nat)) by (rewrite map_length, seq_length; lia).
        rewrite (map_nth (fun i => histogram (col i sm) (nth i cuts []))), seq_nth by lia.
        rewrite (nth_indep _ NotANumber ((fun dc => histogram (col (fst dc) sm) (snd dc)) (0%nat, [])))
          by (rewrite map_length, combine_length, seq_length; lia).
        rewrite (map_nth (fun dc => histogram (col (fst dc) sm) (snd dc))).
        rewrite combine_nth by apply seq_length. rewrite seq_nth by lia. reflexivity. }
      intros w. unfold describe. rewrite EQ. destruct (length sm) as [|n] eqn:En; [discriminate|]. split; intros H.
      - apply omap_inv in H. destruct H as (hs & E & ->). eauto.
      - destruct H as (hs & -> & ->). reflexivity. }
    destruct (fill_from (repeat 0 nb) blk (seq 0 (length cuts))) as [blocks r] eqn:Ef.
    destruct kind.
    + (* PDF *)
      replace (eoq_distribution PDF cuts sm) with (describe cuts (length sm) sm) by (unfold eoq_distribution; now destruct cuts).
      rewrite D. split; intros H.
      * inversion H; subst. apply from_val in Ef.
        assert (G : forall l bs, map blk l = map (fun v => (v, Val tt)) bs ->
                  exists hs, collect (map (fun i => histogram (col i sm) (nth i cuts [])) l) = Val hs /\
                             bs = map (fun h => vdiv (map INR h) (INR (length sm))) hs).
        { induction l as [|i l IH]; intros bs E.
          - destruct bs; [|discriminate]. exists []. auto.
          - destruct bs as [|b bs]; [discriminate|]. cbn in E. inversion E as [[E1 E2]]. destruct (IH _ E2) as (hs & E3 & ->).
            unfold blk in E1. cbn [map collect]. destruct (histogram (col i sm) (nth i cuts [])) as [h|e|]; try discriminate.
            inversion E1; subst. exists (h :: hs). cbn [obind]. rewrite E3. auto. }
        destruct (G _ _ Ef) as (hs & E & ->). eauto.
      * destruct H as (hs & E & ->).
        assert (G : forall l hs, collect (map (fun i => histogram (col i sm) (nth i cuts [])) l) = Val hs ->
                  map blk l = map (fun v => (v, Val tt)) (map (fun h => vdiv (map INR h) (INR (length sm))) hs)).
        { induction l as [|i l IH]; intros hs0 E0.
          - inversion E0; subst. reflexivity.
          - cbn [map collect] in E0. apply obind_inv in E0. destruct E0 as (h & Eh & E0). apply omap_inv in E0. destruct E0 as (hs1 & E1 & ->).
            cbn [map]. rewrite <- (IH _ E1). f_equal. unfold blk. now rewrite Eh. }
        pose proof (proj2 (from_val (repeat 0 nb) blk _ _) (G _ _ E)) as Ef'. rewrite Ef in Ef'. inversion Ef'; subst. reflexivity.
    + (* CDF *)
      destruct cuts as [|c cuts].
      * cbn in Ef. inversion Ef; subst. cbn. split; intros H; inversion H; reflexivity.
      * cbn [eoq_distribution]. split; [|discriminate]. intros H. inversion H; subst. exfalso.
        cbn [length seq fill_from] in Ef. unfold blk at 1 in Ef. destruct (histogram (col 0 sm) (nth 0 (c :: cuts) [])); inversion Ef.
Qed.

Lemma const_fill : forall {A} (blank : A) (x : A * out unit) n s vs,
  fill_from blank (fun _ => x) (seq s n) = (vs, Val tt) <-> vs = repeat (fst x) n /\ (n = 0%nat \/ snd x = Val tt).
Proof.
  intros A blank [v r]. induction n as [|n IH]; intros s vs.
  - cbn. split; intros H; [inversion H; subst; auto|]. destruct H as [H _]. now rewrite H.
  - cbn [seq fill_from fst snd]. destruct r as [[]|e|].
    + destruct (fill_from blank (fun _ => (v, Val tt)) (seq (S s) n)) as [ws r] eqn:E. split; intros H.
      * inversion H; subst. apply IH in E. destruct E as [-> _]. auto.
      * destruct H as [-> _]. assert (P : (ws, r) = (repeat v n, Val tt)) by (rewrite <- E; apply IH; cbn; auto). inversion P; subst. reflexivity.
    + split; intros H; [inversion H|]. destruct H as [_ [H|H]]; discriminate.
    + split; intros H; [inversion H|]. destruct H as [_ [H|H]]; discriminate.
Qed.

Lemma collect_const : forall {A} (x : out A) n s vs,
  collect (map (fun _ => x) (seq s n)) = Val vs <-> (n = 0%nat /\ vs = []) \/ exists v, x = Val v /\ vs = repeat v n.
Proof.
  intros A x. induction n as [|n IH]; intros s vs.
  - cbn. split; intros H; [inversion H; auto|]. destruct H as [[_ ->]|(v & _ & ->)]; reflexivity.
  - cbn [seq map collect]. destruct x as [v|e|]; cbn [obind]; [|split; intros H; [discriminate|destruct H as [[H _]|(v & H & _)]; discriminate]..].
    split; intros H.
    + right. apply omap_inv in H. destruct H as (us & E & ->). exists v. split; [auto|]. apply IH in E.
      destruct E as [[-> ->]|(v' & E & ->)]; [reflexivity|]. inversion E; subst. reflexivity.
    + destruct H as [[H _]|(v' & E & ->)]; [discriminate|]. inversion E; subst v'.
      assert (P : collect (map (fun _ => Val v) (seq (S s) n)) = Val (repeat v n)).
      { apply IH. right. eauto. }
      rewrite P. reflexivity.
Qed.

Lemma distributions_fill : forall p d cuts rows ds,
  fill_distributions p d cuts (Some rows) = (ds, Val tt) <-> eoq_distributions p cuts rows = Val ds.
Proof.
  intros p d cuts rows ds. unfold fill_distributions, eoq_distributions. rewrite const_fill, collect_const.
  destruct (fill_distribution (ep_function p) (ep_bins p) cuts rows) as [v r] eqn:E. cbn [fst snd]. split; intros H.
  - destruct H as [-> [H|H]].
    + left. rewrite H. auto.
    + subst r. right. exists v. split; [|auto]. now apply (distribution_fill _ (ep_bins p)).
  - destruct H as [[H ->]|(w & H & ->)].
    + rewrite H. auto.
    + apply (distribution_fill _ (ep_bins p)) in H. rewrite H in E. inversion E; subst. auto.
Qed.

Lemma prediction_distributions_fill : forall p classes cuts preds ds,
  fill_distributions p (n_descriptors (length classes)) cuts (described (length classes) preds) = (ds, Val tt) <->
  eoq_prediction_distributions p classes cuts preds = Val ds.
Proof.
  intros p classes cuts preds ds. unfold eoq_prediction_distributions.
  destruct (described (length classes) preds) as [rows|]; [apply distributions_fill|].
  unfold fill_distributions. rewrite const_fill. cbn [fst snd]. destruct (ep_function p); destruct (ep_n p) as [|n]; split; intros H;
    try (destruct H as (-> & [H|H]); try discriminate; reflexivity); try (inversion H; subst; auto; fail).
Qed.

Lemma attribute_cuts_fill : forall p k X classes cuts,
  fill_attribute_cuts p k X classes = (cuts, Val tt) <-> eoq_attribute_cuts p k X classes = Val cuts.
Proof. intros. unfold fill_attribute_cuts, eoq_attribute_cuts. apply fill_val. Qed.

Lemma prediction_cuts_fill : forall ppf p classes ye preds cuts,
  fill_prediction_cuts ppf p classes ye preds = (cuts, Val tt) <-> eoq_prediction_cuts ppf p classes ye preds = Val cuts.
Proof.
  intros. unfold fill_prediction_cuts, eoq_prediction_cuts. destruct (described (length classes) preds).
  - apply fill_val.
  - split; intros H; inversion H; reflexivity.
Qed.

Lemma members_without : forall {Q} (fit : Q -> list (list R) -> list Z -> Q * out unit) (new : Q) X y bags l,
  collect (map (fun i => obind (data_without X y bags i) (fun x => returned (uncurried fit new x))) l) =
  collect (map (fun i => obind (item bags i) (fun b => obind (items (snd b) X) (fun Xi => obind (items (snd b) y) (fun yi =>
     let (q, r) := fit new Xi yi in omap (fun _ => q) r)))) l).
Proof.
  intros. apply collect_ext. intros i _. unfold data_without. destruct (item bags i) as [b|e|]; cbn [obind]; auto.
  destruct (items (snd b) X) as [Xi|e|]; cbn [obind]; auto. destruct (items (snd b) y) as [yi|e|]; reflexivity.
Qed.

Lemma members_using : forall {Q} (fit : Q -> list Z -> predictions -> Q * out unit) (new : Q) ye preds columns l,
  collect (map (fun i => obind (data_using ye preds columns i) (fun x => returned (uncurried fit new x))) l) =
  collect (map (fun i => obind (item columns i) (fun idx => obind (items idx ye) (fun yi => obind (member_predictions idx i preds) (fun pi =>
     let (q, r) := fit new yi pi in omap (fun _ => q) r)))) l).
Proof.
  intros. apply collect_ext. intros i _. unfold data_using. destruct (item columns i) as [b|e|]; cbn [obind]; auto.
  destruct (items b ye) as [Xi|e|]; cbn [obind]; auto. destruct (member_predictions b i preds) as [yi|e|]; reflexivity.
Qed.

(** The object of a fitted ensemble. *)
Definition object_of {Q} (q : eoq Q) : eoq_object Q :=
  {| eo_classes := Some (eq_classes q); eo_bags := Some (eq_bags q); eo_cuts := Some (eq_cuts q);
     eo_members := Some (map Some (eq_quantifiers q)); eo_distributions := Some (eq_distributions q) |}.

Lemma without_returns : forall {Q} fit (new : Q) p k X y bags o o',
  object_fit_without (uncurried fit) new p k X y bags o = (Val tt, o') <->
  exists q, fit_without (fun X y => let (q, r) := fit new X y in omap (fun _ => q) r) p k X y bags = Val q /\ o' = object_of q.
Proof.
  intros Q fit new p k X y bags o o'. unfold object_fit_without, fit_without.
  destruct (fill_attribute_cuts p k X (np_unique y)) as [cuts r] eqn:EC.
  destruct r as [[]|e|].
  2: { split; [intros H; inversion H|]. intros (q & H & _). apply obind_inv in H. destruct H as (c & H & _).
       apply attribute_cuts_fill in H. rewrite H in EC. inversion EC. }
  2: { split; [intros H; inversion H|]. intros (q & H & _). apply obind_inv in H. destruct H as (c & H & _).
       apply attribute_cuts_fill in H. rewrite H in EC. inversion EC. }
  apply attribute_cuts_fill in EC. rewrite EC. cbn [obind]. rewrite <- members_without.
  destruct (fill_from None (fun i => train_copy (uncurried fit) new (data_without X y bags i)) (seq 0 (ep_n p))) as [ms r] eqn:EM.
  destruct r as [[]|e|].
  2: { split; [intros H; inversion H|]. intros (q & H & _). apply obind_inv in H. destruct H as (qs & H & _).
       rewrite (proj2 (copies_val (uncurried fit) new (data_without X y bags) _ (map Some qs)) (ex_intro _ qs (conj eq_refl H))) in EM. inversion EM. }
  2: { split; [intros H; inversion H|]. intros (q & H & _). apply obind_inv in H. destruct H as (qs & H & _).
       rewrite (proj2 (copies_val (uncurried fit) new (data_without X y bags) _ (map Some qs)) (ex_intro _ qs (conj eq_refl H))) in EM. inversion EM. }
  apply copies_val in EM. destruct EM as (qs & -> & EM). rewrite EM. cbn [obind].
  destruct (fill_distributions p k cuts (Some X)) as [ds r] eqn:ED. destruct r as [[]|e|].
  - apply distributions_fill in ED. rewrite ED. cbn [omap obind]. split.
    + intros H. inversion H; subst. eexists. split; reflexivity.
    + intros (q & H & ->). inversion H; subst. reflexivity.
  - split; [intros H; inversion H|]. intros (q & H & _). apply omap_inv in H. destruct H as (ds' & H & _).
    apply (proj2 (distributions_fill p k cuts X ds')) in H. rewrite H in ED. inversion ED.
  - split; [intros H; inversion H|]. intros (q & H & _). apply omap_inv in H. destruct H as (ds' & H & _).
    apply (proj2 (distributions_fill p k cuts X ds')) in H. rewrite H in ED. inversion ED.
Qed.

Lemma using_returns : forall {Q} ppf fit (new : Q) p y preds bags o o',
  object_fit_using ppf (uncurried fit) new p y (Val preds) bags o = (Val tt, o') <->
  exists q, fit_using ppf (fun y ps => let (q, r) := fit new y ps in omap (fun _ => q) r) p y preds bags = Val q /\ o' = object_of q.
Proof.
  intros Q ppf fit new p y preds bags o o'. unfold object_fit_using, fit_using. cbn [obind].
  destruct (extended_indexes p y (n_predictions preds) bags) as [columns|e|]; cbn [omap obind];
    [|split; [intros H; inversion H|intros (q & H & _); discriminate]..].
  set (ye := y_ext y (n_predictions preds)). rewrite <- members_using.
  destruct (fill_from None (fun i => train_copy (uncurried fit) new (data_using ye preds columns i)) (seq 0 (ep_n p))) as [ms r] eqn:EM.
  destruct r as [[]|e|].
  2: { split; [intros H; inversion H|]. intros (q & H & _). apply obind_inv in H. destruct H as (qs & H & _).
       rewrite (proj2 (copies_val (uncurried fit) new (data_using ye preds columns) _ (map Some qs)) (ex_intro _ qs (conj eq_refl H))) in EM. inversion EM. }
  2: { split; [intros H; inversion H|]. intros (q & H & _). apply obind_inv in H. destruct H as (qs & H & _).
       rewrite (proj2 (copies_val (uncurried fit) new (data_using ye preds columns) _ (map Some qs)) (ex_intro _ qs (conj eq_refl H))) in EM. inversion EM. }
  apply copies_val in EM. destruct EM as (qs & -> & EM). rewrite EM. cbn [obind].
  destruct (fill_prediction_cuts ppf p (np_unique y) ye preds) as [cuts r] eqn:EC.
  destruct r as [[]|e|].
  2: { split; [intros H; inversion H|]. intros (q & H & _). apply obind_inv in H. destruct H as (c & H & _).
       apply prediction_cuts_fill in H. rewrite H in EC. inversion EC. }
  2: { split; [intros H; inversion H|]. intros (q & H & _). apply obind_inv in H. destruct H as (c & H & _).
       apply prediction_cuts_fill in H. rewrite H in EC. inversion EC. }
  apply prediction_cuts_fill in EC. rewrite EC. cbn [obind].
  destruct (fill_distributions p (n_descriptors (length (np_unique y))) cuts (described (length (np_unique y)) preds)) as [ds r] eqn:ED.
  destruct r as [[]|e|].
  - apply prediction_distributions_fill in ED. rewrite ED. cbn [omap obind]. split.
    + intros H. inversion H; subst. eexists. split; reflexivity.
    + intros (q & H & ->). inversion H; subst. reflexivity.
  - split; [intros H; inversion H|]. intros (q & H & _). apply omap_inv in H. destruct H as (ds' & H & _).
    apply prediction_distributions_fill in H. rewrite H in ED. inversion ED.
  - split; [intros H; inversion H|]. intros (q & H & _). apply omap_inv in H. destruct H as (ds' & H & _).
    apply prediction_distributions_fill in H. rewrite H in ED. inversion ED.
Qed.

Lemma object_fit_returns : forall {S Q} (B : settable S) ppf (c : base_class Q) new p k X y preds given g o o' g',
  EoQ_object_fit B ppf c new p k X y (Val preds) given g o = Some (Val tt, o', g') <->
  exists q, EoQ_fit B ppf (base_of c new) p k X y preds given g = Some (Val q, g') /\ o' = object_of q.
Proof.
  intros S Q B ppf c new p k X y preds given g o o' g'. unfold EoQ_object_fit, EoQ_fit.
  destruct c as [fit pr|fit pr| |]; cbn [base_of].
  - destruct (eoq_bags B p X y given g) as [[[bags|e|] g1]|]; cbn [obind omap];
      try (split; [intros H; inversion H|intros (q & H & _); inversion H]; fail).
    pose proof (without_returns fit new p k X y bags o o') as W. destruct (object_fit_without (uncurried fit) new p k X y bags o) as [r o1].
    split; intros H.
    + inversion H; subst. destruct (proj1 W eq_refl) as (q & E & ->). exists q. now rewrite E.
    + destruct H as (q & E & ->). inversion E as [[E1 E2]]. rewrite <- E2.
      rewrite (proj2 W (ex_intro _ q (conj E1 eq_refl))). reflexivity.
  - destruct (eoq_bags B p X y given g) as [[[bags|e|] g1]|]; cbn [obind omap];
      try (split; [intros H; inversion H|intros (q & H & _); inversion H]; fail).
    pose proof (using_returns ppf fit new p y preds bags o o') as W. destruct (object_fit_using ppf (uncurried fit) new p y (Val preds) bags o) as [r o1].
    split; intros H.
    + inversion H; subst. destruct (proj1 W eq_refl) as (q & E & ->). exists q. now rewrite E.
    + destruct H as (q & E & ->). inversion E as [[E1 E2]]. rewrite <- E2.
      rewrite (proj2 W (ex_intro _ q (conj E1 eq_refl))). reflexivity.
  - destruct (eoq_bags B p X y given g) as [[[bags|e|] g1]|]; cbn [obind omap];
      (split; [intros H; inversion H|intros (q & H & _); inversion H]).
  - split; [intros H; inversion H|]. intros (q & H & _). destruct (eoq_bags B p X y given g) as [[[bags|e|] g1]|]; inversion H.
Qed.
