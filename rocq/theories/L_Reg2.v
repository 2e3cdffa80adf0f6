(** * Fits and predictions of the regression quantifiers. *)

From Coq Require Import Reals List ZArith Lia Lra Bool Arith Permutation.
From Verif Require Import Num Spec L_Num M_Baselines L_Baselines M_Bags Spec_Bags L_Bags
  M_Match Spec_Match L_Match L_Match2 L_Match3 L_Match4 L_Match6 L_Match12 M_Reg Spec_Reg L_Reg.
Import ListNotations.
Open Scope R_scope.

(** ** What a successful fit tells *)

Section Fit.
Context {S M : Type}.
Variables (B : bag_source S) (Q : regression M).

Lemma REG_fit_inv : forall ppf nb strat range labels k X y w q w',
  REG_fit B Q ppf nb strat range labels k X y w = Some (Val q, w') ->
  reg_cuts ppf nb strat range k X y = Val (ro_cuts q) /\
  ro_bins q = nb /\ ro_n_classes q = length (np_unique y) /\ ro_labels q = labels /\
  fit_regressor Q (length (np_unique y)) (ro_dataX q) (ro_dataY q) (w_regressor w) =
    (Val (ro_models q), w_regressor w') /\
  exists bags, bs_generate B X y (w_generator w) = Some (Val bags, w_generator w') /\
    training_rows (ro_cuts q) X (bs_n_bags B (w_generator w')) bags = Val (ro_dataX q) /\
    ro_dataY q = map fst bags.
Proof.
  intros ppf nb strat range labels k X y w q w' H. unfold REG_fit, create_training_set in H.
  destruct (reg_cuts ppf nb strat range k X y) as [cuts| |] eqn:EC; try discriminate.
  destruct (bs_generate B X y (w_generator w)) as [[o g]|] eqn:EG; [|discriminate].
  destruct o as [bags| |]; cbn [obind] in H; try discriminate.
  destruct (training_rows cuts X (bs_n_bags B g) bags) as [rows| |] eqn:ER; cbn [omap obind] in H; try discriminate.
  destruct (fit_regressor Q (length (np_unique y)) rows (map fst bags) (w_regressor w)) as [models user] eqn:EF.
  destruct models as [f| |]; cbn [omap obind] in H; try discriminate.
  inversion H; subst q w'; clear H. cbn [ro_cuts ro_bins ro_n_classes ro_labels ro_dataX ro_dataY ro_models w_regressor w_generator].
  repeat (split; [auto|]). exists bags. auto.
Qed.

(** Kinds of models. *)
Definition model_count (f : fitted M) : nat :=
  match f with UserObject => 1 | Copies ms => length ms | GLMs ps => length ps end.

Lemma fit_regressor_inv : forall n dataX dataY user f user',
  fit_regressor Q n dataX dataY user = (Val f, user') ->
  match user with
  | Some m =>
      if Nat.eqb n 2 then
        f = UserObject /\ exists m', user' = Some m' /\ rg_fit Q m dataX (col 1 dataY) = Val m'
      else user' = Some m /\ exists ms, f = Copies ms /\ length ms = n /\
        forall c, (c < n)%nat -> rg_fit Q m dataX (col c dataY) = Val (nth c ms m)
  | None =>
      user' = None /\ exists ps, f = GLMs ps /\ length ps = (if Nat.eqb n 2 then 1 else n)%nat /\
        forall c, (c < length ps)%nat ->
          glm_fit Q dataX (col (if Nat.eqb n 2 then 1 else c)%nat dataY) = Val (nth c ps [])
  end.
Proof.
  intros n dataX dataY user f user' H. unfold fit_regressor in H.
  assert (GT : forall c t, target c dataY = Val t -> t = col c dataY).
  { intros c t E. unfold target in E. destruct (forallb _ _); [now inversion E|discriminate]. }
  assert (GC : forall (T : Type) (h : list R -> out T) l vs d, collect (map (fun c => obind (target c dataY) h) l) = Val vs ->
    length vs = length l /\ forall i, (i < length l)%nat -> h (col (nth i l O) dataY) = Val (nth i vs d)).
  { intros T h l. induction l as [|c l IH]; intros vs d E; cbn [map collect] in E.
    - inversion E. split; [reflexivity|]. simpl. intros; lia.
    - destruct (target c dataY) as [t| |] eqn:ET; cbn [obind] in E; try discriminate.
      destruct (h t) as [v| |] eqn:EH; try discriminate.
      destruct (collect (map (fun c => obind (target c dataY) h) l)) as [vs'| |] eqn:E'; try discriminate.
      cbn [omap obind] in E. inversion E; subst vs. destruct (IH vs' d eq_refl) as [L I].
      apply GT in ET. subst t. split; [simpl; congruence|].
      intros [|i] Hi; cbn [nth]; [auto|]. apply I. simpl in Hi. lia. }
  destruct (Nat.eqb_spec n 2) as [E2|E2].
  - destruct user as [m|].
    + destruct (target 1 dataY) as [t| |] eqn:ET; cbn [obind] in H; try discriminate.
      apply GT in ET. subst t.
      destruct (rg_fit Q m dataX (col 1 dataY)) as [m'| |] eqn:EM; inversion H; subst.
      split; [auto|]. exists m'. auto.
    + destruct (target 1 dataY) as [t| |] eqn:ET; cbn [omap obind] in H; try discriminate.
      apply GT in ET. subst t. destruct (glm_fit Q dataX (col 1 dataY)) as [p| |] eqn:EM; try discriminate.
      cbn [omap obind] in H. inversion H; subst. split; [auto|]. exists [p]. split; [auto|]. split; [auto|].
      simpl. intros c Hc. assert (c = O) by lia. subst c. auto.
  - destruct user as [m|].
    + destruct (collect _) as [ms| |] eqn:EC; cbn [omap obind] in H; try discriminate. inversion H; subst.
      destruct (GC _ _ _ _ m EC) as [L I]. rewrite seq_length in *. split; [auto|]. exists ms.
      split; [auto|]. split; [auto|]. intros c Hc. specialize (I c Hc). now rewrite seq_nth in I by auto.
    + destruct (collect _) as [ms| |] eqn:EC; cbn [omap obind] in H; try discriminate. inversion H; subst.
      destruct (GC _ _ _ _ [] EC) as [L I]. rewrite seq_length in *. split; [auto|]. exists ms.
      split; [auto|]. split; [auto|]. intros c Hc. rewrite L in Hc. specialize (I c Hc). now rewrite seq_nth in I by auto.
Qed.

Lemma fit_regressor_count : forall n dataX dataY user f user',
  fit_regressor Q n dataX dataY user = (Val f, user') -> model_count f = (if Nat.eqb n 2 then 1 else n)%nat.
Proof.
  intros n dataX dataY user f user' H. apply fit_regressor_inv in H. destruct user as [m|].
  - destruct (Nat.eqb n 2).
    + destruct H as [-> _]. reflexivity.
    + destruct H as (_ & ms & -> & L & _). exact L.
  - destruct H as (_ & ps & -> & L & _). exact L.
Qed.

Lemma outputs_length : forall f user row ps, outputs Q f user row = Val ps -> length ps = model_count f.
Proof.
  intros f user row ps H. unfold outputs in H. destruct f as [|ms|pp]; cbn [model_count].
  - destruct user as [m|]; [|discriminate]. destruct (rg_predict Q m row); try discriminate.
    inversion H. reflexivity.
  - apply collect_length in H. now rewrite map_length in H.
  - apply collect_length in H. now rewrite map_length in H.
Qed.

(** ** Normalisation *)

Lemma normalise_two_val : forall p, normalise_two p = Val [1 - clip01 p; clip01 p].
Proof.
  intros p. unfold normalise_two. cbn [map rsum].
  assert (E : clip01 (1 - p) + (clip01 p + 0) = 1) by (pose proof (clip01_compl p); lra).
  rewrite E. destruct (Rlt_dec 0 1); [|lra]. f_equal. rewrite vdiv_1.
  replace (clip01 (1 - p)) with (1 - clip01 p) by (pose proof (clip01_compl p); lra). reflexivity.
Qed.

Lemma two_distribution : forall p, distribution_over 2 [1 - clip01 p; clip01 p].
Proof.
  intros p. pose proof (clip01_range p). split; [reflexivity|]. split.
  - repeat (apply Forall_cons; [lra|]). apply Forall_nil.
  - simpl. lra.
Qed.

Lemma clipped_nonneg : forall ps, Forall (fun x => 0 <= x) (map clip01 ps).
Proof. intros ps. apply Forall_forall. intros x Hx. apply in_map_iff in Hx. destruct Hx as (p & <- & _). apply clip01_range. Qed.

Lemma clip01_pos : forall p, 0 < p -> 0 < clip01 p.
Proof. intros p H. unfold clip01. rewrite Rmax_left by lra. apply Rmin_glb_lt; lra. Qed.

Lemma clipped_sum_pos : forall ps, Exists (fun p => 0 < p) ps <-> 0 < rsum (map clip01 ps).
Proof.
  intros ps. split.
  - intros H. apply Exists_exists in H. destruct H as (p & I & Hp).
    apply Rlt_le_trans with (clip01 p); [now apply clip01_pos|].
    apply rsum_in_le; [apply clipped_nonneg|now apply in_map].
  - intros H. apply Exists_exists. induction ps as [|p ps IH]; [simpl in H; lra|].
    destruct (Rlt_dec 0 p); [exists p; split; [now left|auto]|].
    cbn [map rsum] in H. rewrite clip01_low in H by lra. destruct IH as (x & I & Hx); [lra|].
    exists x. split; [now right|auto].
Qed.

Lemma normalise_many_val : forall ps, Exists (fun p => 0 < p) ps ->
  normalise_many ps = Val (vdiv (map clip01 ps) (rsum (map clip01 ps))) /\
  distribution_over (length ps) (vdiv (map clip01 ps) (rsum (map clip01 ps))).
Proof.
  intros ps H. apply clipped_sum_pos in H. unfold normalise_many. split.
  - destruct (Req_EM_T (rsum (map clip01 ps)) 0); [lra|reflexivity].
  - split; [now rewrite vdiv_length, map_length|]. apply vdiv_distribution; [apply clipped_nonneg|auto].
Qed.

Lemma normalise_many_nan : forall ps, Forall (fun p => p <= 0) ps -> normalise_many ps = NotANumber.
Proof.
  intros ps H. unfold normalise_many.
  assert (E : rsum (map clip01 ps) = 0).
  { induction H; [reflexivity|]. cbn [map rsum]. rewrite clip01_low by auto. rewrite IHForall. lra. }
  destruct (Req_EM_T (rsum (map clip01 ps)) 0); [reflexivity|contradiction].
Qed.

Lemma normalise_many_inv : forall ps r, normalise_many ps = Val r -> distribution_over (length ps) r.
Proof.
  intros ps r H. destruct (Exists_dec (fun p => 0 < p) ps (fun p => Rlt_dec 0 p)) as [E|E].
  - destruct (normalise_many_val _ E) as [E1 E2]. rewrite E1 in H. now inversion H.
  - rewrite normalise_many_nan in H; [discriminate|]. apply Forall_forall. intros p Hp.
    destruct (Rlt_dec 0 p) as [Hp'|]; [|lra]. exfalso. apply E. apply Exists_exists. eauto.
Qed.

Lemma predict_bag_distribution : forall n dataX dataY u0 u1 q user row r,
  fit_regressor Q n dataX dataY u0 = (Val (ro_models q), u1) -> ro_n_classes q = n ->
  predict_bag Q q user row = Val r -> distribution_over n r.
Proof.
  intros n dataX dataY u0 u1 q user row r HF Hn H. unfold predict_bag in H.
  destruct (outputs Q (ro_models q) user row) as [ps| |] eqn:EO; cbn [obind] in H; try discriminate.
  apply outputs_length in EO. rewrite (fit_regressor_count _ _ _ _ _ _ HF) in EO. rewrite Hn in H.
  destruct (Nat.eqb_spec n 2) as [->|E].
  - rewrite normalise_two_val in H. inversion H. apply two_distribution.
  - rewrite <- EO. now apply normalise_many_inv.
Qed.

(** ** GLM *)

Lemma logistic_range : forall t, 0 < logistic t < 1.
Proof.
  intros t. unfold logistic. pose proof (exp_pos (- t)). unfold Rdiv. rewrite Rmult_1_l. split.
  - apply Rinv_0_lt_compat. lra.
  - rewrite <- Rinv_1. apply Rinv_lt_contravar; lra.
Qed.

(** ** Rows of the test bags *)

Lemma test_row_val : forall nb cuts k rows, sized nb cuts -> Forall ascending_edges cuts -> length cuts = k ->
  rows <> [] -> test_row cuts k rows = Val (counts nb cuts (length rows) rows).
Proof.
  intros nb cuts k rows HS HA L Hr. unfold test_row. rewrite L, Nat.leb_refl. rewrite <- L, firstn_all.
  apply describe_val; auto. destruct rows; [congruence|simpl; lia].
Qed.

Lemma training_row_inv : forall nb cuts X b r, sized nb cuts -> training_row cuts X b = Val r ->
  Forall (fun i => (i < length X)%nat) (snd b) /\ Forall ascending_edges cuts /\ (0 < length X)%nat /\
  r = counts nb cuts (length X) (examples X (snd b)).
Proof.
  intros nb cuts X b r HS H. unfold training_row in H. destruct (forallb _ (snd b)) eqn:E; [|discriminate].
  destruct (describe_inv _ _ _ _ H) as [Hn HA]. split; [|split; [auto|split; [auto|]]].
  - rewrite forallb_forall in E. apply Forall_forall. intros i Hi. apply Nat.ltb_lt. auto.
  - now apply describe_eq.
Qed.

Lemma training_rows_inv : forall nb cuts X n bags rows, sized nb cuts -> training_rows cuts X n bags = Val rows ->
  length rows = n /\ (n <= length bags)%nat /\
  forall j, (j < n)%nat -> exists b, nth_error bags j = Some b /\
    Forall (fun i => (i < length X)%nat) (snd b) /\ Forall ascending_edges cuts /\ (0 < length X)%nat /\
    nth j rows [] = counts nb cuts (length X) (examples X (snd b)).
Proof.
  intros nb cuts X n bags rows HS H. unfold training_rows in H.
  assert (L : length rows = n) by (apply collect_length in H; now rewrite map_length, seq_length in H).
  assert (P : forall j, (j < n)%nat -> exists b, nth_error bags j = Some b /\
    Forall (fun i => (i < length X)%nat) (snd b) /\ Forall ascending_edges cuts /\ (0 < length X)%nat /\
    nth j rows [] = counts nb cuts (length X) (examples X (snd b))).
  { intros j Hj. apply collect_inv in H. apply (f_equal (fun l => nth j l NotANumber)) in H.
    set (g := fun nbag => match nth_error bags nbag with Some b => training_row cuts X b | None => Err IndexError end) in H.
    rewrite (nth_indep (map g _) NotANumber (g O)) in H by (now rewrite map_length, seq_length).
    rewrite (nth_indep (map Val _) NotANumber (Val [])) in H by (now rewrite map_length, L).
    rewrite (map_nth g), (map_nth Val), seq_nth in H by auto. simpl in H. unfold g in H.
    destruct (nth_error bags j) as [b|]; [|discriminate]. exists b. split; [auto|].
    now apply training_row_inv. }
  split; [auto|]. split; [|auto].
  destruct n as [|n]; [lia|]. destruct (P n) as (b & E & _); [lia|].
  assert (nth_error bags n <> None) by congruence. apply nth_error_Some in H0. lia.
Qed.
End Fit.
