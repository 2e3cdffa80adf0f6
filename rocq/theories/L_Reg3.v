(** * The lemmas behind the properties of REGX and REGy. *)

From Coq Require Import Reals List ZArith Lia Lra Bool Arith Permutation.
From Verif Require Import Num Spec L_Num M_Baselines L_Baselines M_Bags Spec_Bags L_Bags
  M_Match Spec_Match L_Match L_Match2 L_Match3 L_Match4 L_Match5 L_Match6 L_Match12 M_Reg Spec_Reg L_Reg L_Reg2.
Import ListNotations.
Open Scope R_scope.

(** ** Labels repeated for the predictions *)

Lemma y_ext_concat : forall y r, y <> [] -> y_ext y (r * length y) = concat (repeat y r).
Proof.
  intros y r Hy. unfold y_ext. assert (length y <> 0)%nat by (destruct y; [congruence|discriminate]).
  destruct (Nat.eqb_spec (length y) (r * length y)) as [E|E].
  - assert (r = 1)%nat by nia. subst r. simpl. now rewrite app_nil_r.
  - now rewrite Nat.div_mul by auto.
Qed.

Lemma unique_repeated : forall y r, (0 < r)%nat -> np_unique (concat (repeat y r)) = np_unique y.
Proof.
  intros y r Hr. apply sorted_lt_ext; try apply np_unique_sorted. intros c. rewrite !np_unique_in.
  split; intros H.
  - apply in_concat in H. destruct H as (l & Hl & Hc). apply repeat_spec in Hl. now subst l.
  - destruct r as [|r]; [lia|]. simpl. apply in_or_app. now left.
Qed.

(** ** Rows of test bags *)

Lemma counts_one_column : forall nb cuts n preds, length cuts = 1%nat ->
  counts nb cuts n (map (fun r => [nth 0 r 0]) preds) = counts nb cuts n preds.
Proof.
  intros nb cuts n preds L. unfold counts. rewrite L. apply tabulate_ext. intros r Hr.
  assert (nb <> 0)%nat by (intros ->; simpl in Hr; lia).
  assert (E : (r / nb = 0)%nat) by (apply Nat.div_small; lia). rewrite E.
  unfold col. now rewrite map_map.
Qed.

Lemma bin_counts_one_column : forall nb cuts n preds r, length cuts = 1%nat ->
  bin_counts nb cuts n (map (fun r => [nth 0 r 0]) preds) r <-> bin_counts nb cuts n preds r.
Proof.
  intros nb cuts n preds r L. unfold bin_counts. rewrite L.
  assert (E : forall b, (b < 1)%nat -> col b (map (fun r => [nth 0 r 0]) preds) = col b preds).
  { intros b Hb. assert (b = O) by lia. subst b. unfold col. now rewrite map_map. }
  split; intros (H1 & H2); (split; [auto|]); intros b k Hb Hk; destruct (H2 b k Hb Hk) as (c & Hc & Ec);
    exists c; (split; [|auto]); [rewrite <- E|rewrite E]; auto.
Qed.

Section Properties.
Context {S M : Type}.
Variables (B : bag_source S) (Q : regression M) (ppf : R -> R).

Lemma REG_facts : forall nb strat range labels k X y w q w',
  REG_fit B Q ppf nb strat range labels k X y w = Some (Val q, w') -> ro_dataX q <> [] ->
  sized nb (ro_cuts q) /\ length (ro_cuts q) = k /\ Forall ascending_edges (ro_cuts q).
Proof.
  intros nb strat range labels k X y w q w' H Hd.
  destruct (REG_fit_inv _ _ _ _ _ _ _ _ _ _ _ _ _ H) as (HC & Hb & Hn & Hl & HF & bags & HG & HR & HY).
  destruct (reg_cuts_sized _ _ _ _ _ _ _ _ HC) as [HS HL]. split; [auto|]. split; [auto|].
  destruct (training_rows_inv nb _ _ _ _ _ HS HR) as (L & Lb & P).
  destruct (bs_n_bags B (w_generator w')) as [|nbags]; [destruct (ro_dataX q); [congruence|discriminate]|].
  destruct (P O) as (b & _ & _ & HA & _); [lia|auto].
Qed.

Lemma REGX_row : forall nb strat k X y w q w' user rows,
  REGX_fit B Q ppf nb strat (Table k X) y w = Some (Val q, w') -> ro_dataX q <> [] -> rows <> [] ->
  REGX_predict Q q user (Table k rows) = predict_bag Q q user (counts nb (ro_cuts q) (length rows) rows).
Proof.
  intros nb strat k X y w q w' user rows H Hd Hr. unfold REGX_fit in H.
  destruct (REG_facts _ _ _ _ _ _ _ _ _ _ H Hd) as (HS & HL & HA).
  unfold REGX_predict. rewrite (test_row_val nb) by auto. reflexivity.
Qed.

Lemma REGX_asks : forall nb strat k X y w q w' user rows,
  REGX_fit B Q ppf nb strat (Table k X) y w = Some (Val q, w') -> ro_dataX q <> [] -> rows <> [] ->
  exists row, bin_counts nb (ro_cuts q) (length rows) rows row /\
    REGX_predict Q q user (Table k rows) = predict_bag Q q user row.
Proof.
  intros. exists (counts nb (ro_cuts q) (length rows) rows). split; [apply counts_spec|]. eapply REGX_row; eauto.
Qed.

(** REGy as an instance of REG. *)
Lemma REGy_fit_REG : forall nb strat y r preds w, y <> [] -> (0 < r)%nat -> length preds = (r * length y)%nat ->
  Forall (fun p => length p = length (np_unique y)) preds ->
  REGy_fit B Q ppf nb strat y preds w =
  REG_fit B Q ppf nb strat (Some (0, 1)) (length (np_unique y)) (n_descriptors (length (np_unique y)))
    (if Nat.eqb (length (np_unique y)) 2 then map (fun r => [nth 0 r 0]) preds else preds)
    (concat (repeat y r)) w.
Proof.
  intros nb strat y r preds w Hy Hr L HW. unfold REGy_fit. rewrite L, y_ext_concat by auto. unfold n_descriptors.
  destruct (Nat.eqb (length (np_unique y)) 2) eqn:E2; [reflexivity|].
  replace (width preds) with (length (np_unique y)); [reflexivity|].
  destruct preds as [|p preds].
  - destruct y; [congruence|]. simpl in L. destruct r; lia.
  - unfold width. simpl. symmetry. now apply Forall_inv in HW.
Qed.

Lemma REGy_row : forall nb strat y r preds w q w' user test, y <> [] -> (0 < r)%nat ->
  length preds = (r * length y)%nat -> Forall (fun p => length p = length (np_unique y)) preds ->
  REGy_fit B Q ppf nb strat y preds w = Some (Val q, w') -> ro_dataX q <> [] ->
  test <> [] -> Forall (fun p => length p = length (np_unique y)) test ->
  REGy_predict Q q user test = predict_bag Q q user (counts nb (ro_cuts q) (length test) test).
Proof.
  intros nb strat y r preds w q w' user test Hy Hr L HW H Hd Ht HT.
  rewrite (REGy_fit_REG _ _ _ r) in H by auto.
  destruct (REG_facts _ _ _ _ _ _ _ _ _ _ H Hd) as (HS & HL & HA).
  destruct (REG_fit_inv _ _ _ _ _ _ _ _ _ _ _ _ _ H) as (_ & _ & _ & Hl & _).
  unfold REGy_predict. rewrite Hl. destruct test as [|t test]; [congruence|].
  assert (HWt : width (t :: test) = length (np_unique y)) by (apply Forall_inv in HT; exact HT).
  rewrite HWt. assert (Hk : (n_descriptors (length (np_unique y)) <= length (np_unique y))%nat)
    by (unfold n_descriptors; destruct (Nat.eqb_spec (length (np_unique y)) 2); lia).
  apply Nat.leb_le in Hk. rewrite Hk. rewrite (test_row_val nb) by (auto || discriminate). reflexivity.
Qed.

Lemma REGy_asks : forall nb strat y r preds w q w' user test, y <> [] -> (0 < r)%nat ->
  length preds = (r * length y)%nat -> Forall (fun p => length p = length (np_unique y)) preds ->
  REGy_fit B Q ppf nb strat y preds w = Some (Val q, w') -> ro_dataX q <> [] ->
  test <> [] -> Forall (fun p => length p = length (np_unique y)) test ->
  exists row, bin_counts nb (ro_cuts q) (length test) test row /\
    REGy_predict Q q user test = predict_bag Q q user row.
Proof.
  intros. exists (counts nb (ro_cuts q) (length test) test). split; [apply counts_spec|].
  eapply REGy_row; eauto.
Qed.

(** ** Predictions are distributions *)

Lemma REGX_distribution : forall nb strat X y w q w' user T r,
  REGX_fit B Q ppf nb strat X y w = Some (Val q, w') -> REGX_predict Q q user T = Val r ->
  distribution_over (length (np_unique y)) r.
Proof.
  intros nb strat X y w q w' user T r H HP. unfold REGX_fit in H. destruct X as [|k X]; [discriminate|].
  destruct (REG_fit_inv _ _ _ _ _ _ _ _ _ _ _ _ _ H) as (HC & Hb & Hn & Hl & HF & _).
  unfold REGX_predict in HP. destruct T as [|k' rows]; [discriminate|].
  destruct (test_row (ro_cuts q) k' rows) as [row| |]; cbn [obind] in HP; try discriminate.
  eapply predict_bag_distribution; eauto.
Qed.

Lemma REGy_distribution : forall nb strat y r preds w q w' user test p, y <> [] -> (0 < r)%nat ->
  length preds = (r * length y)%nat -> REGy_fit B Q ppf nb strat y preds w = Some (Val q, w') ->
  REGy_predict Q q user test = Val p -> distribution_over (length (np_unique y)) p.
Proof.
  intros nb strat y r preds w q w' user test p Hy Hr L H HP. unfold REGy_fit in H.
  rewrite L, y_ext_concat in H by auto.
  assert (G : forall k X, REG_fit B Q ppf nb strat (Some (0, 1)) (length (np_unique y)) k X (concat (repeat y r)) w
                          = Some (Val q, w') -> distribution_over (length (np_unique y)) p).
  { intros k X H'. destruct (REG_fit_inv _ _ _ _ _ _ _ _ _ _ _ _ _ H') as (HC & Hb & Hn & Hl & HF & _).
    rewrite unique_repeated in * by auto. unfold REGy_predict in HP. destruct test; [discriminate|].
    destruct (Nat.leb _ _); [|discriminate].
    destruct (test_row _ _ _) as [row| |]; cbn [obind] in HP; try discriminate.
    eapply predict_bag_distribution; eauto. }
  destruct (Nat.eqb (length (np_unique y)) 2); eapply G; eauto.
Qed.

(** ** What is predicted, from the outputs of the models *)

Lemma predict_two : forall dataX dataY m u1 q m1 row p,
  fit_regressor Q 2 dataX dataY (Some m) = (Val (ro_models q), u1) -> ro_n_classes q = 2%nat ->
  rg_predict Q m1 row = Val p -> predict_bag Q q (Some m1) row = Val [1 - clip01 p; clip01 p].
Proof.
  intros dataX dataY m u1 q m1 row p HF Hn HP. apply fit_regressor_inv in HF. cbn [Nat.eqb] in HF.
  destruct HF as [EF _]. unfold predict_bag. rewrite EF. cbn [outputs]. rewrite HP. cbn [omap obind].
  rewrite Hn. cbn [Nat.eqb hd]. apply normalise_two_val.
Qed.

Lemma predict_many : forall n dataX dataY m u1 q user row, n <> 2%nat ->
  fit_regressor Q n dataX dataY (Some m) = (Val (ro_models q), u1) -> ro_n_classes q = n -> always_predicts Q ->
  exists ps, length ps = n /\
    (forall c, (c < n)%nat -> exists mc, rg_fit Q m dataX (col c dataY) = Val mc /\ rg_predict Q mc row = Val (nth c ps 0)) /\
    predict_bag Q q user row = normalise_many ps.
Proof.
  intros n dataX dataY m u1 q user row H2 HF Hn HA. apply fit_regressor_inv in HF.
  destruct (Nat.eqb_spec n 2) as [|_]; [contradiction|]. destruct HF as (_ & ms & EF & L & HM).
  destruct (collect_all (fun m => rg_predict Q m row) ms) as (ps & EP); [intros; apply HA|].
  assert (Lp : length ps = n) by (apply collect_length in EP; now rewrite map_length, L in EP).
  exists ps. split; [auto|]. split.
  - intros c Hc. exists (nth c ms m). split; [auto|].
    apply collect_inv in EP. apply (f_equal (fun l => nth c l NotANumber)) in EP.
    rewrite (nth_indep (map (fun m => rg_predict Q m row) ms) NotANumber (rg_predict Q m row)) in EP
      by (rewrite map_length; lia).
    rewrite (map_nth (fun m => rg_predict Q m row)) in EP.
    rewrite (nth_indep (map Val ps) NotANumber (Val 0)) in EP by (rewrite map_length; lia).
    now rewrite (map_nth Val) in EP.
  - unfold predict_bag. rewrite EF. cbn [outputs]. rewrite EP. cbn [obind]. rewrite Hn.
    destruct (Nat.eqb_spec n 2); [contradiction|reflexivity].
Qed.

Lemma predict_glm : forall n dataX dataY u1 q user row, (0 < n)%nat ->
  fit_regressor Q n dataX dataY None = (Val (ro_models q), u1) -> ro_n_classes q = n ->
  one_coefficient_each Q -> dataX <> [] -> Forall (fun r => length r = length row) dataX ->
  exists ps, length ps = (if Nat.eqb n 2 then 1 else n)%nat /\
    (forall c, (c < length ps)%nat -> exists params,
       glm_fit Q dataX (col (if Nat.eqb n 2 then 1 else c)%nat dataY) = Val params /\
       nth c ps 0 = logistic (rsum (vmap2 Rmult row params)) /\ 0 < nth c ps 0 < 1) /\
    predict_bag Q q user row = (if Nat.eqb n 2 then Val [1 - hd 0 ps; hd 0 ps] else Val (vdiv ps (rsum ps))).
Proof.
  intros n dataX dataY u1 q user row Hn0 HF Hn HO Hd HW. apply fit_regressor_inv in HF.
  destruct HF as (_ & pp & EF & L & HP).
  pose (g := fun params => logistic (rsum (vmap2 Rmult row params))).
  assert (EO : collect (map (fun p => glm_predict p row) pp) = Val (map g pp)).
  { apply collect_val. intros p Hp. apply (In_nth _ _ []) in Hp. destruct Hp as (c & Hc & <-).
    specialize (HP c Hc). apply (HO (length row)) in HP; auto. unfold glm_predict. now rewrite HP, Nat.eqb_refl. }
  exists (map g pp). rewrite map_length.
  assert (R1 : Forall (fun p => 0 < p < 1) (map g pp)).
  { apply Forall_forall. intros p Hp. apply in_map_iff in Hp. destruct Hp as (x & <- & _). apply logistic_range. }
  assert (EG : forall c, (c < length pp)%nat -> nth c (map g pp) 0 = g (nth c pp [])).
  { intros c Hc. rewrite (nth_indep _ 0 (g [])) by (now rewrite map_length). apply (map_nth g). }
  split; [exact L|]. split.
  - intros c Hc. exists (nth c pp []). split; [auto|]. split; [now apply EG|].
    rewrite Forall_forall in R1. apply R1. apply nth_In. now rewrite map_length.
  - unfold predict_bag. rewrite EF. cbn [outputs]. rewrite EO. cbn [obind]. rewrite Hn.
    destruct (Nat.eqb n 2).
    + rewrite normalise_two_val. destruct pp as [|p [|]]; try discriminate. cbn [map hd].
      cbn [map] in R1. apply Forall_inv in R1. now rewrite clip01_id by lra.
    + assert (EC : map clip01 (map g pp) = map g pp).
      { rewrite <- (map_id (map g pp)) at 2. apply map_ext_in. intros p Hp. rewrite Forall_forall in R1.
        specialize (R1 p Hp). apply clip01_id. lra. }
      assert (EX : Exists (fun p => 0 < p) (map g pp)).
      { apply Exists_exists. destruct pp as [|p pp]; [simpl in L; lia|]. exists (g p). split; [now left|].
        apply logistic_range. }
      destruct (normalise_many_val _ EX) as [-> _]. now rewrite EC.
Qed.

End Properties.
