(** * Ensembles of quantifiers: fits that succeed. *)

From Coq Require Import Reals List ZArith Lra Lia Permutation Bool.
From Verif Require Import Num Spec L_Num M_Baselines L_Baselines M_Metrics M_Bags Spec_Bags M_Match Spec_Match
  L_Match L_Match2 L_Match3 L_Match6 L_Match12 M_Reg Spec_Reg L_Reg L_Reg2 M_Eoq Spec_Eoq L_Eoq L_Eoq2 L_Eoq3 L_Eoq4 L_Eoq5 L_Eoq6 L_Eoq7.
Import ListNotations.
Open Scope R_scope.

Lemma members_fitted : forall {Q} n (step : nat -> out Q), (forall i, (i < n)%nat -> exists m, step i = Val m) ->
  exists qs, collect (map step (seq 0 n)) = Val qs.
Proof.
  intros Q n step H. apply collect_all. intros i Hi. apply in_seq in Hi. apply H. lia.
Qed.

Lemma rows_described : forall p nb cuts rows, sized nb cuts -> Forall ascending_edges cuts -> rows <> [] ->
  ep_function p = PDF -> exists ds, eoq_distributions p cuts rows = Val ds.
Proof.
  intros p nb cuts rows HS HA HR HP. unfold eoq_distributions. apply members_fitted. intros i _.
  exists (counts nb cuts (length rows) rows). rewrite HP. unfold eoq_distribution.
  rewrite <- (describe_val nb cuts (length rows) rows HS HA) by (destruct rows; [congruence|cbn; lia]). now destruct cuts.
Qed.

Lemma without_works : forall {S Q} (B : settable S) ppf fit predict p k X y preds (bags : list bag) g,
  ep_bins p = 100%nat -> ep_function p = PDF -> X <> [] -> length y = length X ->
  (ep_n p <= length bags)%nat -> Forall (fun b : bag => Forall (fun i => (i < length y)%nat) (snd b)) bags ->
  (forall Xi yi, exists m : Q, fit Xi yi = Val m) ->
  exists q, EoQ_fit B ppf (Without fit predict) p k X y preds (Some bags) g = Some (Val q, g).
Proof.
  intros S Q B ppf fit predict p k X y preds bags g HB HP HX HL HN HI HF. unfold EoQ_fit, eoq_bags. cbn [obind].
  unfold fit_without.
  assert (C : exists cuts, eoq_attribute_cuts p k X (np_unique y) = Val cuts /\ sized 100 cuts /\ Forall ascending_edges cuts).
  { assert (E : exists cuts, eoq_attribute_cuts p k X (np_unique y) = Val cuts).
    { unfold eoq_attribute_cuts. apply collect_all. intros a _.
      destruct (equal_width_cuts (fun x => x) (col a X) [] (np_unique y) (ep_bins p) None) as (c & E & _).
      - lia.
      - destruct X; [congruence|discriminate].
      - rewrite E. cbn [obind]. destruct (cuts_length _ _ _ _ _ _ _ _ E) as [L _]. rewrite L, HB. cbn. eauto. }
    destruct E as (cuts & E). exists cuts. split; [auto|].
    destruct (attribute_cuts_inv _ _ _ _ _ E) as (LC & SZ & _). rewrite HB in SZ. split; [auto|].
    apply Forall_forall. intros c Hc. apply (In_nth _ _ []) in Hc. destruct Hc as (i & Hi & <-).
    unfold eoq_attribute_cuts in E. pose proof (collect_nth _ _ _ E i 0%nat [] ltac:(rewrite seq_length; lia)) as E1.
    apply obind_inv in E1. destruct E1 as (c & Ec & E1). destruct (Nat.eqb_spec (length c) 101); [|discriminate]. inversion E1; subst c.
    destruct (equal_width_cuts (fun x => x) (col (nth i (seq 0 k) 0%nat) X) [] (np_unique y) (ep_bins p) None) as (c' & E' & V);
      [lia|destruct X; [congruence|discriminate]|].
    rewrite Ec in E'. inversion E' as [E2]. rewrite E2. apply V. }
  destruct C as (cuts & EC & SZ & AS). rewrite EC. cbn [obind].
  match goal with |- context [collect (map ?f (seq 0 (ep_n p)))] => destruct (members_fitted (ep_n p) f) as (qs & EQ) end.
  { intros i Hi. destruct (nth_error bags i) as [b|] eqn:Eb; [|apply nth_error_None in Eb; lia]. cbv beta.
    rewrite (proj2 (item_val _ _ _) Eb). cbn [obind].
    rewrite Forall_forall in HI. pose proof (HI b (nth_error_In _ _ Eb)) as Hb.
    assert (Hb' : Forall (fun i => (i < length X)%nat) (snd b)) by (rewrite <- HL; exact Hb).
    rewrite (items_ok X (snd b) [] Hb'), (items_ok y (snd b) 0%Z Hb). cbn [obind]. apply HF. }
  rewrite EQ. cbn [obind]. destruct (rows_described p 100 cuts X SZ AS HX HP) as (ds & ED). rewrite ED. eexists. reflexivity.
Qed.

Lemma using_works_general : forall {S Q} (B : settable S) ppf fit predict p k X y preds rows (bags : list bag) g,
  (0 < ep_bins p)%nat -> ep_function p = PDF -> ep_strategy p = EqualWidth -> y <> [] -> length rows = length y ->
  described (length (np_unique y)) preds = Some rows -> n_predictions preds = length y ->
  (forall idx i, (i < ep_n p)%nat -> Forall (fun j => (j < length y)%nat) idx -> exists pi, member_predictions idx i preds = Val pi) ->
  (ep_n p <= length bags)%nat -> Forall (fun b : bag => Forall (fun i => (i < length y)%nat) (snd b)) bags ->
  (forall yi pi, exists m : Q, fit yi pi = Val m) ->
  exists q, EoQ_fit B ppf (Using fit predict) p k X y preds (Some bags) g = Some (Val q, g).
Proof.
  intros S Q B ppf fit predict p k X y preds rows bags g HB HP HE HY HL HDs HNp HMp HN HI HF. unfold EoQ_fit, eoq_bags. cbn [obind].
  unfold fit_using. unfold extended_indexes. rewrite HNp, Nat.eqb_refl. cbn [obind].
  assert (EY : y_ext y (length y) = y).
  { unfold y_ext. rewrite Nat.eqb_refl. reflexivity. }
  rewrite EY.
  match goal with |- context [collect (map ?f (seq 0 (ep_n p)))] => destruct (members_fitted (ep_n p) f) as (qs & EQ) end.
  { intros i Hi. destruct (nth_error bags i) as [b|] eqn:Eb; [|apply nth_error_None in Eb; lia]. cbv beta.
    assert (Em : nth_error (map snd bags) i = Some (snd b)) by (exact (map_nth_error snd i bags Eb)).
    rewrite (proj2 (item_val _ _ _) Em). cbn [obind].
    rewrite Forall_forall in HI. pose proof (HI b (nth_error_In _ _ Eb)) as Hb.
    rewrite (items_ok y (snd b) 0%Z Hb). cbn [obind]. destruct (HMp (snd b) i Hi Hb) as (pi & ->). cbn [obind]. apply HF. }
  rewrite EQ. cbn [obind]. unfold eoq_prediction_cuts, eoq_prediction_distributions. rewrite HDs, HE.
  set (d := n_descriptors (length (np_unique y))).
  assert (HR : rows <> []) by (destruct rows, y; try discriminate; congruence).
  assert (C : exists cuts, collect (map (fun descr => compute_bincuts ppf (col descr rows) y (np_unique y) (ep_bins p) EqualWidth None) (seq 0 d)) = Val cuts /\
      sized (ep_bins p) cuts /\ Forall ascending_edges cuts).
  { assert (E : exists cuts, collect (map (fun descr => compute_bincuts ppf (col descr rows) y (np_unique y) (ep_bins p) EqualWidth None) (seq 0 d)) = Val cuts).
    { apply collect_all. intros a _.
      destruct (equal_width_cuts ppf (col a rows) y (np_unique y) (ep_bins p) None) as (c & E & _); [lia|destruct rows; [congruence|discriminate]|].
      rewrite E. eauto. }
    destruct E as (cuts & E). exists cuts. split; [auto|].
    pose proof (collect_length _ _ E) as LC. rewrite map_length, seq_length in LC.
    assert (G : Forall (fun c => length c = Datatypes.S (ep_bins p) /\ ascending_edges c) cuts).
    { apply Forall_forall. intros c Hc. apply (In_nth _ _ []) in Hc. destruct Hc as (i & Hi & <-).
      pose proof (collect_nth _ _ _ E i 0%nat [] ltac:(rewrite seq_length; lia)) as E1. cbv beta in E1.
      destruct (cuts_length _ _ _ _ _ _ _ _ E1) as [L _]. split; [auto|].
      destruct (equal_width_cuts ppf (col (nth i (seq 0 d) 0%nat) rows) y (np_unique y) (ep_bins p) None) as (c' & E' & V);
        [lia|destruct rows; [congruence|discriminate]|].
      rewrite E1 in E'. inversion E' as [E2]. rewrite E2. apply V. }
    split; (eapply Forall_impl; [|exact G]); intros c [H1 H2]; auto. }
  destruct C as (cuts & EC & SZ & AS). rewrite EC. cbn [obind].
  destruct (rows_described p (ep_bins p) cuts rows SZ AS HR HP) as (ds & ED). rewrite ED. eexists. reflexivity.
Qed.

Lemma using_works : forall {S Q} (B : settable S) ppf fit predict p k X y rows (bags : list bag) g,
  (0 < ep_bins p)%nat -> ep_function p = PDF -> ep_strategy p = EqualWidth -> y <> [] -> length rows = length y ->
  (ep_n p <= length bags)%nat -> Forall (fun b : bag => Forall (fun i => (i < length y)%nat) (snd b)) bags ->
  (forall yi pi, exists m : Q, fit yi pi = Val m) ->
  exists q, EoQ_fit B ppf (Using fit predict) p k X y (Soft rows) (Some bags) g = Some (Val q, g).
Proof.
  intros S Q B ppf fit predict p k X y rows bags g HB HP HE HY HL HN HI HF.
  apply (using_works_general B ppf fit predict p k X y (Soft rows) rows); auto.
  intros idx i _ Hb. rewrite <- HL in Hb. cbn [member_predictions]. rewrite (items_ok rows idx [] Hb). cbn [omap obind]. eauto.
Qed.

Lemma using_models_works : forall {S Q} (B : settable S) ppf fit predict p k X y ps (bags : list bag) g,
  (0 < ep_bins p)%nat -> ep_function p = PDF -> ep_strategy p = EqualWidth -> y <> [] -> length ps = length y ->
  Forall (fun ex => (ep_n p <= length ex)%nat) ps ->
  (ep_n p <= length bags)%nat -> Forall (fun b : bag => Forall (fun i => (i < length y)%nat) (snd b)) bags ->
  (forall yi pi, exists m : Q, fit yi pi = Val m) ->
  exists q, EoQ_fit B ppf (Using fit predict) p k X y (PerModel ps) (Some bags) g = Some (Val q, g).
Proof.
  intros S Q B ppf fit predict p k X y ps bags g HB HP HE HY HL HM HN HI HF.
  apply (using_works_general B ppf fit predict p k X y (PerModel ps) (average_models (length (np_unique y)) ps)); auto.
  - unfold average_models. now rewrite map_length.
  - intros idx i Hi Hb. rewrite <- HL in Hb. cbn [member_predictions]. rewrite (items_ok ps idx [] Hb). cbn [obind].
    match goal with |- context [collect (map ?f ?l)] => destruct (collect_all f l) as (vs & E) end.
    + intros ex Hex. apply in_map_iff in Hex. destruct Hex as (j & <- & Hj). rewrite Forall_forall in Hb, HM.
      specialize (Hb j Hj). specialize (HM _ (nth_In ps [] Hb)). eexists. apply (item_ok _ _ []). lia.
    + rewrite E. cbn [omap obind]. eauto.
Qed.
