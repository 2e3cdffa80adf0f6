(** * Training pairs, scale of the rows, shared objects, exact recovery. *)

From Coq Require Import Reals List ZArith Lia Lra Bool Arith Permutation.
From Verif Require Import Num Spec L_Num M_Baselines L_Baselines M_Bags Spec_Bags L_Bags L_Bags2 L_Bags3
  M_Match Spec_Match L_Match L_Match2 L_Match3 L_Match4 L_Match5 L_Match6 L_Match12 M_Reg Spec_Reg L_Reg L_Reg2 L_Reg3.
Import ListNotations.
Open Scope R_scope.

(** ** The generators of the library *)

Lemma prior_honest : forall (G : Type) (RG : rng G) fuel s global X y, rng_ok RG -> y <> [] -> ps_bags s = None ->
  (0 < bag_size_of s y)%nat -> one_per_class (ps_min s) (length (np_unique y)) ->
  honest_source (prior_source RG fuel) (s, global) X y (bag_size_of s y).
Proof.
  intros G RG fuel s global X y HR Hy Hb Hs Ho bags g' H. cbn [bs_generate bs_n_bags prior_source fst snd] in *.
  destruct (PS_generate RG fuel s y global) as [[[o s'] g]|] eqn:E; [|discriminate].
  inversion H; subst. destruct (@PS_honest _ _ _ _ _ _ _ _ _ HR Hy Hb Hs Ho E) as [L F].
  split; [|auto]. cbn [fst]. rewrite L. unfold PS_generate in E. rewrite Hb in E.
  destruct (get_random RG (ps_random s)) as [g0|]; [|discriminate].
  destruct (ps_method s).
  - destruct (generate_uniform RG y (ps_n_bags s) _ (ps_min s) fuel g0) as [[[b| |] g']|]; try discriminate;
      inversion E; subst; reflexivity.
  - destruct (generate_dirichlet RG y (ps_n_bags s) _ (ps_alphas s) global g0) as [[o gl] g'].
    inversion E; subst; reflexivity.
  - discriminate.
Qed.

Lemma covariate_honest : forall (G : Type) (RG : rng G) s X y, rng_ok RG -> cs_bags s = None ->
  (0 < cs_size_of s y)%nat -> honest_source (covariate_source RG) s X y (cs_size_of s y).
Proof.
  intros G RG s X y HR Hb Hs bags g' H. cbn [bs_generate bs_n_bags covariate_source] in *.
  assert (E : CS_generate RG s X y = (Val bags, g')) by congruence.
  destruct (@CS_honest _ _ _ _ _ _ _ HR Hb Hs E) as [L F]. split; [|auto]. rewrite L.
  unfold CS_generate in E. rewrite Hb in E. destruct (get_random RG (cs_random s)) as [g0|]; [|discriminate].
  destruct (Nat.eqb _ _ && _)%bool; [|discriminate].
  destruct (r_randint RG 0 _ (cs_n_bags s) g0) as [cs g1].
  destruct (covariate_bags RG X y (np_unique y) _ cs g1) as [bb g2]. inversion E; subst; reflexivity.
Qed.

Lemma mixed_honest : forall (G : Type) (RG : rng G) fuel s global X y size, rng_ok RG -> ms_bags s = None ->
  ms_bag_size s = Some size -> (0 < size)%nat -> one_per_class (ms_min s) (length (np_unique y)) ->
  honest_source (mixed_source RG fuel) (s, global) X y size.
Proof.
  intros G RG fuel s global X y size HR Hb Hz Hs Ho bags g' H. cbn [bs_generate bs_n_bags mixed_source fst snd] in *.
  destruct (MS_generate RG fuel s X y global) as [[[o s'] g]|] eqn:E; [|discriminate].
  inversion H; subst. destruct (@MS_honest _ _ _ _ _ _ _ _ _ _ _ HR Hb Hz Hs Ho E) as (L & F & _).
  split; [|auto]. cbn [fst]. rewrite L. unfold MS_generate in E. rewrite Hb, Hz in E. cbv zeta in E.
  destruct (PS_generate RG fuel _ y global) as [[[[b1| |] s1] g1]|]; try discriminate.
  destruct (CS_generate RG _ X y) as [[b2| |] c2]; try discriminate. inversion E; reflexivity.
Qed.

Lemma prior_write_once : forall (G : Type) (RG : rng G) fuel, write_once (prior_source RG fuel).
Proof.
  intros G RG fuel X y [s g] bags [s' g'] H X' y'. cbn [bs_generate prior_source fst snd] in *.
  destruct (PS_generate RG fuel s y g) as [[[o s1] g1]|] eqn:E; [|discriminate]. inversion H; subst.
  destruct (PS_once _ _ _ _ _ _ _ _ _ E []) as (s2 & E1 & E2). simpl in E1. inversion E1; subst s2.
  now rewrite E2.
Qed.

Lemma covariate_write_once : forall (G : Type) (RG : rng G), write_once (covariate_source RG).
Proof.
  intros G RG X y s bags s' H X' y'. cbn [bs_generate covariate_source] in *.
  assert (E : CS_generate RG s X y = (Val bags, s')) by congruence.
  pose proof (CS_once _ _ _ _ _ _ _ E [] X' y') as E1. simpl in E1. now rewrite E1.
Qed.

Lemma mixed_write_once : forall (G : Type) (RG : rng G) fuel, write_once (mixed_source RG fuel).
Proof.
  intros G RG fuel X y [s g] bags [s' g'] H X' y'. cbn [bs_generate mixed_source fst snd] in *.
  destruct (MS_generate RG fuel s X y g) as [[[o s1] g1]|] eqn:E; [|discriminate]. inversion H; subst.
  destruct (MS_once _ _ _ _ _ _ _ _ _ _ E []) as (s2 & E1 & E2). simpl in E1. inversion E1; subst s2.
  now rewrite E2.
Qed.

Section Properties.
Context {S M : Type}.
Variables (B : bag_source S) (Q : regression M) (ppf : R -> R).

(** ** Training pairs *)

Lemma honest_nth : forall y size bags j b, Forall (honest_bag y size) bags -> nth_error bags j = Some b -> honest_bag y size b.
Proof. intros y size bags j b F E. rewrite Forall_forall in F. apply F. eapply nth_error_In; eauto. Qed.

Lemma nth_map_fst : forall (bags : list bag) j b, nth_error bags j = Some b -> nth j (map fst bags) [] = fst b.
Proof.
  intros bags j b E. rewrite (nth_indep _ [] (fst ([] : list R, [] : list nat))).
  - rewrite (map_nth fst). f_equal. now apply nth_error_nth.
  - rewrite map_length. apply nth_error_Some. unfold bag in *. rewrite E. discriminate.
Qed.

Lemma REG_pairs : forall nb strat range labels k X y w q w' size,
  REG_fit B Q ppf nb strat range labels k X y w = Some (Val q, w') ->
  honest_source B (w_generator w) X y size ->
  length (ro_dataX q) = bs_n_bags B (w_generator w') /\ length (ro_dataY q) = length (ro_dataX q) /\
  forall j, (j < length (ro_dataX q))%nat ->
    exists idx, training_pair nb (ro_cuts q) X y size (nth j (ro_dataX q) []) (nth j (ro_dataY q) []) idx /\
      Forall (fun i => (i < length X)%nat) idx /\
      nth j (ro_dataX q) [] = counts nb (ro_cuts q) (length X) (examples X idx).
Proof.
  intros nb strat range labels k X y w q w' size H HH.
  destruct (REG_fit_inv _ _ _ _ _ _ _ _ _ _ _ _ _ H) as (HC & Hb & Hn & Hl & HF & bags & HG & HR & HY).
  destruct (HH _ _ HG) as [Lb FB]. destruct (reg_cuts_sized _ _ _ _ _ _ _ _ HC) as [HS HL].
  destruct (training_rows_inv nb _ _ _ _ _ HS HR) as (L & _ & P). split; [auto|].
  split; [rewrite HY, map_length; unfold bag in *; rewrite L; exact Lb|].
  intros j Hj. rewrite L in Hj. destruct (P j Hj) as (b & E & FI & HA & HX & ER).
  destruct (honest_nth _ _ _ _ _ FB E) as (Ls & FY & LP & HP).
  exists (snd b). split; [|auto]. rewrite HY, (nth_map_fst _ _ _ E), ER.
  split; [auto|]. split; [auto|]. split; [apply counts_spec|]. auto.
Qed.

Lemma REGX_pairs : forall nb strat k X y w q w' size,
  REGX_fit B Q ppf nb strat (Table k X) y w = Some (Val q, w') ->
  honest_source B (w_generator w) X y size ->
  length (ro_dataX q) = bs_n_bags B (w_generator w') /\ length (ro_dataY q) = length (ro_dataX q) /\
  forall j, (j < length (ro_dataX q))%nat ->
    exists idx, training_pair nb (ro_cuts q) X y size (nth j (ro_dataX q) []) (nth j (ro_dataY q) []) idx.
Proof.
  intros nb strat k X y w q w' size H HH. destruct (REG_pairs _ _ _ _ _ _ _ _ _ _ _ H HH) as (L1 & L2 & P).
  split; [auto|]. split; [auto|]. intros j Hj. destruct (P j Hj) as (idx & T & _). eauto.
Qed.

Lemma examples_map : forall (f : list R -> list R) X idx, Forall (fun i => (i < length X)%nat) idx ->
  examples (map f X) idx = map f (examples X idx).
Proof.
  intros f X idx H. unfold examples. rewrite map_map. apply map_ext_in. intros i Hi. rewrite Forall_forall in H.
  rewrite (nth_indep _ [] (f [])) by (rewrite map_length; auto). apply map_nth.
Qed.

Definition regy_table (y : list Z) (preds : list (list R)) : list (list R) :=
  if Nat.eqb (length (np_unique y)) 2 then map (fun r => [nth 0 r 0]) preds else preds.

Lemma REGy_pairs : forall nb strat y r preds w q w' size, y <> [] -> (0 < r)%nat ->
  length preds = (r * length y)%nat -> Forall (fun p => length p = length (np_unique y)) preds ->
  REGy_fit B Q ppf nb strat y preds w = Some (Val q, w') ->
  honest_source B (w_generator w) (if Nat.eqb (length (np_unique y)) 2 then map (fun r => [nth 0 r 0]) preds else preds)
    (concat (repeat y r)) size ->
  length (ro_dataX q) = bs_n_bags B (w_generator w') /\ length (ro_dataY q) = length (ro_dataX q) /\
  forall j, (j < length (ro_dataX q))%nat ->
    exists idx, training_pair nb (ro_cuts q) preds (concat (repeat y r)) size
                  (nth j (ro_dataX q) []) (nth j (ro_dataY q) []) idx.
Proof.
  intros nb strat y r preds w q w' size Hy Hr L HW H HH. rewrite (REGy_fit_REG _ _ _ _ _ _ r) in H by auto.
  destruct (REG_pairs _ _ _ _ _ _ _ _ _ _ _ H HH) as (L1 & L2 & P).
  split; [auto|]. split; [auto|]. intros j Hj. destruct (P j Hj) as (idx & (T1 & T2 & T3 & T4 & T5) & FX & _).
  exists idx. split; [auto|]. split; [auto|]. split; [|auto].
  destruct (Nat.eqb_spec (length (np_unique y)) 2) as [E2|E2]; [|auto].
  assert (LC : length (ro_cuts q) = 1%nat).
  { destruct (REG_fit_inv _ _ _ _ _ _ _ _ _ _ _ _ _ H) as (HC & _).
    destruct (reg_cuts_sized _ _ _ _ _ _ _ _ HC) as [_ ->]. unfold n_descriptors. now rewrite E2. }
  rewrite map_length in T3, FX. rewrite examples_map in T3 by auto. exact (proj1 (bin_counts_one_column _ _ _ _ _ LC) T3).
Qed.

(** ** Scale *)

Lemma examples_length : forall X idx, length (examples X idx) = length idx.
Proof. intros. apply map_length. Qed.

Lemma REGX_same_scale : forall nb strat k X y w q w' user j,
  REGX_fit B Q ppf nb strat (Table k X) y w = Some (Val q, w') ->
  honest_source B (w_generator w) X y (length X) -> (j < length (ro_dataX q))%nat ->
  exists idx, training_pair nb (ro_cuts q) X y (length X) (nth j (ro_dataX q) []) (nth j (ro_dataY q) []) idx /\
    REGX_predict Q q user (Table k (examples X idx)) = predict_bag Q q user (nth j (ro_dataX q) []).
Proof.
  intros nb strat k X y w q w' user j H HH Hj.
  destruct (REG_pairs _ _ _ _ _ _ _ _ _ _ _ H HH) as (L1 & L2 & P).
  destruct (P j Hj) as (idx & T & FX & E). exists idx. split; [auto|].
  assert (Hd : ro_dataX q <> []) by (intros Z; rewrite Z in Hj; simpl in Hj; lia).
  assert (Li : length idx = length X) by apply T.
  assert (Hx : examples X idx <> []).
  { intros Z. apply (f_equal (@length _)) in Z. rewrite examples_length, Li in Z. simpl in Z.
    destruct (REG_fit_inv _ _ _ _ _ _ _ _ _ _ _ _ _ H) as (HC & _ & _ & _ & _ & bags & _ & HR & _).
    destruct (reg_cuts_sized _ _ _ _ _ _ _ _ HC) as [HS _].
    destruct (training_rows_inv nb _ _ _ _ _ HS HR) as (L & _ & P').
    rewrite L in Hj. destruct (P' j Hj) as (b & _ & _ & _ & HX & _). lia. }
  rewrite (REGX_row B Q ppf nb strat k X y w q w') by auto.
  now rewrite examples_length, Li, <- E.
Qed.

Lemma REG_scale : forall nb strat range labels k X y w q w' size j i,
  REG_fit B Q ppf nb strat range labels k X y w = Some (Val q, w') ->
  honest_source B (w_generator w) X y size -> (0 < size)%nat -> (j < length (ro_dataX q))%nat ->
  exists idx, training_pair nb (ro_cuts q) X y size (nth j (ro_dataX q) []) (nth j (ro_dataY q) []) idx /\
    forall r, bin_counts nb (ro_cuts q) (length (examples X idx)) (examples X idx) r ->
      nth i (nth j (ro_dataX q) []) 0 = INR size / INR (length X) * nth i r 0.
Proof.
  intros nb strat range labels k X y w q w' size j i H HH Hs Hj.
  destruct (REG_pairs _ _ _ _ _ _ _ _ _ _ _ H HH) as (L1 & L2 & P).
  destruct (P j Hj) as (idx & T & FX & E). exists idx. split; [auto|]. intros r Hr.
  assert (Li : length idx = size) by apply T.
  assert (HX : (0 < length X)%nat).
  { destruct idx as [|i0 idx]; [simpl in Li; lia|]. apply Forall_inv in FX. lia. }
  rewrite (bin_counts_unique _ _ _ _ _ _ Hr (counts_spec _ _ _ _)). rewrite examples_length, Li, E.
  now apply counts_scale.
Qed.

Lemma REG_covering : forall nb strat range labels k X y w q w', strat = EqualWidth \/ strat = EqualCount ->
  REG_fit B Q ppf nb strat range labels k X y w = Some (Val q, w') -> ro_dataX q <> [] ->
  Forall (covering_cuts nb) (ro_cuts q).
Proof.
  intros nb strat range labels k X y w q w' Hs H Hd.
  destruct (REG_facts _ _ _ _ _ _ _ _ _ _ _ _ _ H Hd) as (HS & HL & HA).
  destruct (REG_fit_inv _ _ _ _ _ _ _ _ _ _ _ _ _ H) as (HC & _).
  apply covering_all; [|auto]. unfold reg_cuts in HC. apply collect_inv in HC.
  apply Forall_forall. intros c Hc.
  assert (I : In (Val c) (map (fun att => compute_bincuts ppf (col att X) y (np_unique y) nb strat range) (seq 0 k)))
    by (rewrite HC; now apply in_map).
  apply in_map_iff in I. destruct I as (a & Ea & _). eapply simple_shape; eauto.
Qed.

Lemma REG_mass : forall nb strat range labels k X y w q w' size, strat = EqualWidth \/ strat = EqualCount ->
  REG_fit B Q ppf nb strat range labels k X y w = Some (Val q, w') ->
  honest_source B (w_generator w) X y size ->
  (forall j b, (j < length (ro_dataX q))%nat -> (b < k)%nat ->
     sumn nb (fun i => nth (b * nb + i) (nth j (ro_dataX q) []) 0) = INR size / INR (length X)) /\
  (forall rows r b, rows <> [] -> ro_dataX q <> [] -> bin_counts nb (ro_cuts q) (length rows) rows r -> (b < k)%nat ->
     sumn nb (fun i => nth (b * nb + i) r 0) = 1).
Proof.
  intros nb strat range labels k X y w q w' size Hst H HH.
  destruct (REG_pairs _ _ _ _ _ _ _ _ _ _ _ H HH) as (L1 & L2 & P).
  destruct (REG_fit_inv _ _ _ _ _ _ _ _ _ _ _ _ _ H) as (HC & _).
  destruct (reg_cuts_sized _ _ _ _ _ _ _ _ HC) as [_ LC].
  split.
  - intros j b Hj Hb. destruct (P j Hj) as (idx & T & FX & E). rewrite E.
    assert (Hd : ro_dataX q <> []) by (intros Z; rewrite Z in Hj; simpl in Hj; lia).
    rewrite counts_mass; [|refine (reg_cuts_pos _ _ _ _ k _ _ _ _ HC); lia|eapply REG_covering; eauto|lia].
    rewrite examples_length. destruct T as [-> _]. reflexivity.
  - intros rows r b Hr Hd Hb Hk. rewrite (bin_counts_unique _ _ _ _ _ _ Hb (counts_spec _ _ _ _)).
    rewrite counts_mass; [|refine (reg_cuts_pos _ _ _ _ k _ _ _ _ HC); lia|eapply REG_covering; eauto|lia].
    assert (0 < INR (length rows)) by (apply length_pos; auto). field. lra.
Qed.

Lemma REG_other_scale : forall nb strat range labels k X y w q w' size, strat = EqualWidth \/ strat = EqualCount ->
  REG_fit B Q ppf nb strat range labels k X y w = Some (Val q, w') -> (0 < k)%nat ->
  honest_source B (w_generator w) X y size -> size <> length X ->
  forall j rows r, (j < length (ro_dataX q))%nat -> rows <> [] ->
    bin_counts nb (ro_cuts q) (length rows) rows r -> nth j (ro_dataX q) [] <> r.
Proof.
  intros nb strat range labels k X y w q w' size Hst H Hk HH Hz j rows r Hj Hr Hb E.
  destruct (REG_mass _ _ _ _ _ _ _ _ _ _ _ Hst H HH) as [M1 M2].
  assert (Hd : ro_dataX q <> []) by (intros Z; rewrite Z in Hj; simpl in Hj; lia).
  specialize (M1 j O Hj Hk). specialize (M2 rows r O Hr Hd Hb Hk). rewrite E, M2 in M1. apply Hz.
  destruct (REG_fit_inv _ _ _ _ _ _ _ _ _ _ _ _ _ H) as (HC & _ & _ & _ & _ & bags & _ & HR & _).
  destruct (reg_cuts_sized _ _ _ _ _ _ _ _ HC) as [HS _].
  destruct (training_rows_inv nb _ _ _ _ _ HS HR) as (L & _ & P').
  rewrite L in Hj. destruct (P' j Hj) as (b & _ & _ & _ & HX & _).
  assert (0 < INR (length X)) by (apply INR_pos; auto).
  apply INR_eq. apply (Rmult_eq_reg_r (/ INR (length X))); [|apply Rinv_neq_0_compat; lra].
  rewrite Rinv_r by lra. symmetry. exact M1.
Qed.

(** ** Shared objects *)

Lemma predict_bag_user : forall (q : reg_object M) user user' row, ro_models q <> UserObject ->
  predict_bag Q q user row = predict_bag Q q user' row.
Proof.
  intros q user user' row H. unfold predict_bag, outputs. destruct (ro_models q); [contradiction| |]; reflexivity.
Qed.

Lemma REG_not_shared : forall nb strat range labels k X y w q w',
  REG_fit B Q ppf nb strat range labels k X y w = Some (Val q, w') ->
  length (np_unique y) <> 2%nat \/ w_regressor w = None -> ro_models q <> UserObject /\ w_regressor w' = w_regressor w.
Proof.
  intros nb strat range labels k X y w q w' H Hn.
  destruct (REG_fit_inv _ _ _ _ _ _ _ _ _ _ _ _ _ H) as (_ & _ & _ & _ & HF & _).
  apply fit_regressor_inv in HF. destruct (w_regressor w) as [m|].
  - destruct (Nat.eqb_spec (length (np_unique y)) 2); [destruct Hn; [contradiction|discriminate]|].
    destruct HF as (E & ms & -> & _). split; [discriminate|auto].
  - destruct HF as (E & ps & -> & _). split; [discriminate|auto].
Qed.

(** The generator keeps the bags it has returned. *)
Lemma history_keeps : forall bags, write_once B ->
  forall evs w w2, (forall X y, bs_generate B X y (w_generator w) = Some (Val bags, w_generator w)) ->
  reg_history B Q ppf evs w = Some w2 -> w_generator w2 = w_generator w.
Proof.
  intros bags HW. 
  assert (F : forall nb strat range labels k X y w o w1,
    (forall X y, bs_generate B X y (w_generator w) = Some (Val bags, w_generator w)) ->
    REG_fit B Q ppf nb strat range labels k X y w = Some (o, w1) -> w_generator w1 = w_generator w).
  { intros nb strat range labels k X y w o w1 HG H. unfold REG_fit, create_training_set in H.
    destruct (reg_cuts ppf nb strat range k X y) as [cuts| |]; [|inversion H; reflexivity|inversion H; reflexivity].
    rewrite HG in H. cbn [obind] in H.
    destruct (training_rows cuts X (bs_n_bags B (w_generator w)) bags) as [rows| |]; cbn [omap obind] in H;
      [|inversion H; reflexivity|inversion H; reflexivity].
    destruct (fit_regressor Q _ rows (map fst bags) (w_regressor w)) as [models user]. inversion H; reflexivity. }
  induction evs as [|ev evs IH]; intros w w2 HG H; cbn [reg_history] in H; [inversion H; reflexivity|].
  destruct ev as [rows t|X y|nb strat X y|nb strat y preds].
  - apply IH in H; auto.
  - rewrite HG in H. apply IH in H; auto.
  - destruct (REGX_fit B Q ppf nb strat X y w) as [[o w1]|] eqn:E; [|discriminate].
    assert (G1 : w_generator w1 = w_generator w).
    { unfold REGX_fit in E. destruct X as [|k X]; [inversion E; reflexivity|]. eapply F; eauto. }
    apply IH in H; [congruence|]. rewrite G1. auto.
  - destruct (REGy_fit B Q ppf nb strat y preds w) as [[o w1]|] eqn:E; [|discriminate].
    assert (G1 : w_generator w1 = w_generator w).
    { unfold REGy_fit in E. destruct (Nat.eqb _ 2); eapply F; eauto. }
    apply IH in H; [congruence|]. rewrite G1. auto.
Qed.

Lemma shared_bags : forall nb strat range labels k X y w q w' evs w2 nb2 strat2 range2 labels2 k2 X2 y2 q2 w3,
  write_once B -> REG_fit B Q ppf nb strat range labels k X y w = Some (Val q, w') ->
  reg_history B Q ppf evs w' = Some w2 ->
  REG_fit B Q ppf nb2 strat2 range2 labels2 k2 X2 y2 w2 = Some (Val q2, w3) ->
  ro_dataY q2 = ro_dataY q /\ length (ro_dataX q2) = length (ro_dataX q) /\
  forall j, (j < length (ro_dataX q))%nat -> exists idx,
    bin_counts nb (ro_cuts q) (length X) (examples X idx) (nth j (ro_dataX q) []) /\
    bin_counts nb2 (ro_cuts q2) (length X2) (examples X2 idx) (nth j (ro_dataX q2) []).
Proof.
  intros nb strat range labels k X y w q w' evs w2 nb2 strat2 range2 labels2 k2 X2 y2 q2 w3 HW H HE H2.
  destruct (REG_fit_inv _ _ _ _ _ _ _ _ _ _ _ _ _ H) as (HC & _ & _ & _ & _ & bags & HG & HR & HY).
  destruct (REG_fit_inv _ _ _ _ _ _ _ _ _ _ _ _ _ H2) as (HC2 & _ & _ & _ & _ & bags2 & HG2 & HR2 & HY2).
  pose proof (fun X' y' => HW _ _ _ _ _ HG X' y') as HO.
  pose proof (history_keeps bags HW evs w' w2 HO HE) as EW. rewrite EW, HO in HG2.
  inversion HG2 as [[EB EG]]. subst bags2. rewrite <- EG in HR2.
  split; [congruence|].
  destruct (reg_cuts_sized _ _ _ _ _ _ _ _ HC) as [HS _]. destruct (reg_cuts_sized _ _ _ _ _ _ _ _ HC2) as [HS2 _].
  destruct (training_rows_inv nb _ _ _ _ _ HS HR) as (L & _ & P).
  destruct (training_rows_inv nb2 _ _ _ _ _ HS2 HR2) as (L2 & _ & P2).
  split; [congruence|]. intros j Hj. rewrite L in Hj.
  destruct (P j Hj) as (b & Eb & _ & _ & _ & E). destruct (P2 j Hj) as (b2 & Eb2 & _ & _ & _ & E2).
  rewrite Eb in Eb2. inversion Eb2; subst b2. exists (snd b). rewrite E, E2. split; apply counts_spec.
Qed.

(** ** Exact recovery *)

Lemma pair_fractions : forall nb cuts X y size row t idx, training_pair nb cuts X y size row t idx ->
  t = map (fun c => fraction c (bag_labels y idx)) (np_unique y).
Proof.
  intros nb cuts X y size row t idx (_ & _ & _ & L & H). apply (nth_ext _ _ 0 (fraction 0 (bag_labels y idx))).
  - now rewrite map_length.
  - intros c Hc. rewrite L in Hc. rewrite (map_nth (fun c => fraction c (bag_labels y idx)) (np_unique y) 0%Z).
    auto.
Qed.

Lemma pair_distribution : forall nb cuts X y size row t idx, (0 < size)%nat ->
  training_pair nb cuts X y size row t idx -> distribution_over (length (np_unique y)) t.
Proof.
  intros nb cuts X y size row t idx Hs T. rewrite (pair_fractions _ _ _ _ _ _ _ _ T).
  destruct T as (Li & FI & _). apply fractions_distribution; [apply np_unique_NoDup| |].
  - intros Z. apply (f_equal (@length _)) in Z. unfold bag_labels in Z. rewrite map_length in Z. simpl in Z. lia.
  - intros c Hc. apply np_unique_in. unfold bag_labels in Hc. apply in_map_iff in Hc.
    destruct Hc as (i & <- & Hi). rewrite Forall_forall in FI. apply nth_In. auto.
Qed.

Lemma col_nth : forall c j (m : list (list R)), nth j (col c m) 0 = nth c (nth j m []) 0.
Proof.
  intros c j m. unfold col. set (g := fun r : list R => nth c r 0).
  destruct (le_lt_dec (length m) j).
  - rewrite (nth_overflow (map g m)) by (now rewrite map_length). rewrite (nth_overflow m) by auto. now destruct c.
  - rewrite (nth_indep _ 0 (g [])) by (now rewrite map_length). now rewrite (map_nth g).
Qed.

Lemma REGX_recovers_two : forall nb strat k X y w q w' m m' j, length (np_unique y) = 2%nat ->
  REGX_fit B Q ppf nb strat (Table k X) y w = Some (Val q, w') ->
  honest_source B (w_generator w) X y (length X) -> w_regressor w = Some m -> w_regressor w' = Some m' ->
  interpolates Q m' (ro_dataX q) (col 1 (ro_dataY q)) -> (j < length (ro_dataX q))%nat ->
  exists idx, training_pair nb (ro_cuts q) X y (length X) (nth j (ro_dataX q) []) (nth j (ro_dataY q) []) idx /\
    REGX_predict Q q (w_regressor w') (Table k (examples X idx)) =
    Val (map (fun c => fraction c (bag_labels y idx)) (np_unique y)).
Proof.
  intros nb strat k X y w q w' m m' j H2 H HH Em Em' HI Hj.
  destruct (REGX_same_scale nb strat k X y w q w' (w_regressor w') j H HH Hj) as (idx & T & E).
  exists idx. split; [auto|]. rewrite E, Em'. specialize (HI j Hj). rewrite col_nth in HI.
  destruct (REG_fit_inv _ _ _ _ _ _ _ _ _ _ _ _ _ H) as (HC & _ & Hn & _ & HF & _).
  rewrite Em, H2 in HF. rewrite H2 in Hn. rewrite (predict_two Q _ _ _ _ _ _ _ _ HF Hn HI).
  assert (Hs : (0 < length X)%nat).
  { destruct (REG_fit_inv _ _ _ _ _ _ _ _ _ _ _ _ _ H) as (_ & _ & _ & _ & _ & bags & _ & HR & _).
    destruct (reg_cuts_sized _ _ _ _ _ _ _ _ HC) as [HS _].
    destruct (training_rows_inv nb _ _ _ _ _ HS HR) as (L & _ & P').
    rewrite L in Hj. destruct (P' j Hj) as (b & _ & _ & _ & HX & _). auto. }
  rewrite <- (pair_fractions _ _ _ _ _ _ _ _ T). f_equal.
  pose proof (pair_distribution _ _ _ _ _ _ _ _ Hs T) as (LT & F0 & S1). rewrite H2 in LT.
  destruct (nth j (ro_dataY q) []) as [|a [|b [|]]]; try discriminate. cbn [nth].
  pose proof (Forall_inv F0). pose proof (Forall_inv (Forall_inv_tail F0)). simpl in S1.
  rewrite clip01_id by lra. apply (f_equal2 cons); [lra|reflexivity].
Qed.

Lemma REGX_recovers_many : forall nb strat k X y w q w' m j, length (np_unique y) <> 2%nat ->
  REGX_fit B Q ppf nb strat (Table k X) y w = Some (Val q, w') ->
  honest_source B (w_generator w) X y (length X) -> w_regressor w = Some m -> always_predicts Q ->
  (forall c mc, (c < length (np_unique y))%nat -> rg_fit Q m (ro_dataX q) (col c (ro_dataY q)) = Val mc ->
     interpolates Q mc (ro_dataX q) (col c (ro_dataY q))) -> (j < length (ro_dataX q))%nat ->
  exists idx, training_pair nb (ro_cuts q) X y (length X) (nth j (ro_dataX q) []) (nth j (ro_dataY q) []) idx /\
    REGX_predict Q q (w_regressor w') (Table k (examples X idx)) =
    Val (map (fun c => fraction c (bag_labels y idx)) (np_unique y)).
Proof.
  intros nb strat k X y w q w' m j H2 H HH Em HA HI Hj.
  destruct (REGX_same_scale nb strat k X y w q w' (w_regressor w') j H HH Hj) as (idx & T & E).
  exists idx. split; [auto|]. rewrite E.
  destruct (REG_fit_inv _ _ _ _ _ _ _ _ _ _ _ _ _ H) as (HC & _ & Hn & _ & HF & _). rewrite Em in HF.
  destruct (predict_many Q _ _ _ _ _ q (w_regressor w') (nth j (ro_dataX q) []) H2 HF Hn HA) as (ps & Lp & HP & EP).
  rewrite EP.
  assert (Hs : (0 < length X)%nat).
  { destruct (REG_fit_inv _ _ _ _ _ _ _ _ _ _ _ _ _ H) as (_ & _ & _ & _ & _ & bags & _ & HR & _).
    destruct (reg_cuts_sized _ _ _ _ _ _ _ _ HC) as [HS _].
    destruct (training_rows_inv nb _ _ _ _ _ HS HR) as (L & _ & P').
    rewrite L in Hj. destruct (P' j Hj) as (b & _ & _ & _ & HX & _). auto. }
  pose proof (pair_distribution _ _ _ _ _ _ _ _ Hs T) as (LT & F0 & S1).
  assert (EQ : ps = nth j (ro_dataY q) []).
  { apply (nth_ext _ _ 0 0); [congruence|]. intros c Hc. rewrite Lp in Hc.
    destruct (HP c Hc) as (mc & E1 & E2). specialize (HI c mc Hc E1 j Hj). rewrite E2, col_nth in HI.
    now inversion HI. }
  rewrite EQ. rewrite <- (pair_fractions _ _ _ _ _ _ _ _ T).
  set (t := nth j (ro_dataY q) []) in *.
  assert (EC : map clip01 t = t).
  { rewrite <- (map_id t) at 2. apply map_ext_in. intros v Hv. apply clip01_id. split.
    - rewrite Forall_forall in F0. auto.
    - rewrite <- S1. apply rsum_in_le; auto. }
  unfold normalise_many. rewrite EC, S1. destruct (Req_EM_T 1 0); [lra|]. now rewrite vdiv_1.
Qed.

End Properties.
