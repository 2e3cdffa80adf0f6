(** * Order of the test examples, the default regression model, examples and counterexamples. *)

From Coq Require Import Reals List ZArith Lia Lra Bool Arith Permutation.
From Verif Require Import Num Spec L_Num M_Baselines L_Baselines M_Bags Spec_Bags L_Bags L_Bags2 L_Bags3
  M_Match Spec_Match L_Match L_Match2 L_Match3 L_Match4 L_Match5 L_Match6 L_Match10 L_Match12
  M_Reg Spec_Reg L_Reg L_Reg2 L_Reg3 L_Reg4.
Import ListNotations.
Open Scope R_scope.

Section Properties.
Context {S M : Type}.
Variables (B : bag_source S) (Q : regression M) (ppf : R -> R).

(** ** Order and repetition of the test examples *)

Lemma REGX_same_bag : forall nb strat k X y w q w' user rows rows',
  REGX_fit B Q ppf nb strat (Table k X) y w = Some (Val q, w') -> ro_dataX q <> [] -> rows <> [] ->
  Permutation rows rows' \/ (exists t, (0 < t)%nat /\ rows' = repeated t rows) ->
  REGX_predict Q q user (Table k rows') = REGX_predict Q q user (Table k rows).
Proof.
  intros nb strat k X y w q w' user rows rows' H Hd Hr [P|(t & Ht & ->)].
  - assert (rows' <> []) by (intros ->; apply Permutation_sym, Permutation_nil in P; auto).
    rewrite !(REGX_row B Q ppf nb strat k X y w q w') by auto.
    rewrite (Permutation_length P). f_equal. apply counts_perm. now apply Permutation_sym.
  - assert (repeated t rows <> []).
    { intros Z. apply (f_equal (@length _)) in Z. rewrite repeated_length in Z. destruct rows; [congruence|]. simpl in Z. nia. }
    rewrite !(REGX_row B Q ppf nb strat k X y w q w') by auto. f_equal. now apply counts_repeated.
Qed.

Lemma repeated_in : forall {A} t (l : list A) x, In x (repeated t l) -> In x l.
Proof.
  intros A t l x H. unfold repeated in H. apply in_concat in H. destruct H as (z & Hz & Hx).
  apply in_map_iff in Hz. destruct Hz as (a & <- & Ha). apply repeat_spec in Hx. now subst.
Qed.

Lemma REGy_same_bag : forall nb strat y r preds w q w' user test test', y <> [] -> (0 < r)%nat ->
  length preds = (r * length y)%nat -> Forall (fun p => length p = length (np_unique y)) preds ->
  REGy_fit B Q ppf nb strat y preds w = Some (Val q, w') -> ro_dataX q <> [] ->
  test <> [] -> Forall (fun p => length p = length (np_unique y)) test ->
  Permutation test test' \/ (exists t, (0 < t)%nat /\ test' = repeated t test) ->
  REGy_predict Q q user test' = REGy_predict Q q user test.
Proof.
  intros nb strat y r preds w q w' user test test' Hy Hr L HW H Hd Ht HT HC.
  assert (HT' : Forall (fun p => length p = length (np_unique y)) test').
  { rewrite Forall_forall in *. intros x Hx. apply HT. destruct HC as [P|(t & _ & ->)].
    - eapply Permutation_in; [apply Permutation_sym|]; eauto.
    - eapply repeated_in; eauto. }
  assert (Ht' : test' <> []).
  { destruct HC as [P|(t & Hp & ->)].
    - intros ->. apply Permutation_sym, Permutation_nil in P. auto.
    - intros Z. apply (f_equal (@length _)) in Z. rewrite repeated_length in Z. destruct test; [congruence|]. simpl in Z. nia. }
  rewrite !(REGy_row B Q ppf nb strat y r preds w q w') by auto. f_equal. destruct HC as [P|(t & Hp & ->)].
  - rewrite (Permutation_length P). apply counts_perm. now apply Permutation_sym.
  - now apply counts_repeated.
Qed.

(** ** The default regression model *)

Lemma REG_row_lengths : forall nb strat range labels k X y w q w',
  REG_fit B Q ppf nb strat range labels k X y w = Some (Val q, w') ->
  Forall (fun r => length r = (nb * k)%nat) (ro_dataX q).
Proof.
  intros nb strat range labels k X y w q w' H.
  destruct (REG_fit_inv _ _ _ _ _ _ _ _ _ _ _ _ _ H) as (HC & _ & _ & _ & _ & bags & _ & HR & _).
  destruct (reg_cuts_sized _ _ _ _ _ _ _ _ HC) as [HS HL].
  destruct (training_rows_inv nb _ _ _ _ _ HS HR) as (L & _ & P).
  apply Forall_forall. intros r Hr. apply (In_nth _ _ []) in Hr. destruct Hr as (j & Hj & <-).
  rewrite L in Hj. destruct (P j Hj) as (b & _ & _ & _ & _ & ->). now rewrite counts_length, HL.
Qed.

Lemma divided_distribution : forall ps, ps <> [] -> Forall (fun p => 0 < p < 1) ps ->
  distribution_over (length ps) (vdiv ps (rsum ps)) /\ Forall (fun p => 0 < p) (vdiv ps (rsum ps)).
Proof.
  intros ps Hn H.
  assert (HP : 0 < rsum ps).
  { destruct ps as [|p ps]; [congruence|]. pose proof (Forall_inv H). simpl.
    assert (0 <= rsum ps); [|lra]. apply rsum_nonneg. apply Forall_inv_tail in H.
    apply Forall_forall. intros v Hv. rewrite Forall_forall in H. specialize (H v Hv). lra. }
  split.
  - split; [apply vdiv_length|]. apply vdiv_distribution; [|auto]. apply Forall_forall. intros v Hv.
    rewrite Forall_forall in H. specialize (H v Hv). lra.
  - apply Forall_forall. intros v Hv. unfold vdiv in Hv. apply in_map_iff in Hv. destruct Hv as (p & <- & Hp).
    rewrite Forall_forall in H. specialize (H p Hp). apply Rdiv_lt_0_compat; lra.
Qed.

Lemma glm_positive : forall nb strat range labels k X y w q w' user row, y <> [] ->
  REG_fit B Q ppf nb strat range labels k X y w = Some (Val q, w') -> w_regressor w = None ->
  one_coefficient_each Q -> ro_dataX q <> [] -> length row = (nb * k)%nat ->
  exists r, predict_bag Q q user row = Val r /\ distribution_over (length (np_unique y)) r /\ Forall (fun p => 0 < p) r.
Proof.
  intros nb strat range labels k X y w q w' user row Hy H Hw HO Hd HL.
  destruct (REG_fit_inv _ _ _ _ _ _ _ _ _ _ _ _ _ H) as (HC & _ & Hn & _ & HF & _). rewrite Hw in HF.
  pose proof (REG_row_lengths _ _ _ _ _ _ _ _ _ _ H) as HR.
  assert (Hn0 : (0 < length (np_unique y))%nat)
    by (apply np_unique_nonempty in Hy; destruct (np_unique y); [congruence|simpl; lia]).
  assert (HR' : Forall (fun r => length r = length row) (ro_dataX q))
    by (rewrite HL; auto).
  destruct (predict_glm Q _ _ _ _ q user row Hn0 HF Hn HO Hd HR') as (ps & Lp & HP & EP).
  rewrite EP. destruct (Nat.eqb_spec (length (np_unique y)) 2) as [E2|E2].
  - eexists. split; [reflexivity|]. destruct (HP O) as (params & _ & _ & R1); [lia|].
    destruct ps as [|p ps]; [discriminate|]. cbn [nth hd] in *. rewrite E2. split.
    + split; [reflexivity|]. split; [repeat (apply Forall_cons; [lra|]); apply Forall_nil|simpl; lra].
    + repeat (apply Forall_cons; [lra|]); apply Forall_nil.
  - eexists. split; [reflexivity|].
    assert (HA : Forall (fun p => 0 < p < 1) ps).
    { apply Forall_forall. intros p Hp. apply (In_nth _ _ 0) in Hp. destruct Hp as (c & Hc & <-).
      destruct (HP c Hc) as (params & _ & _ & R1). exact R1. }
    rewrite <- Lp at 1. apply divided_distribution; [|auto]. destruct ps; [simpl in Lp; lia|discriminate].
Qed.

Lemma REGX_glm : forall nb strat k X y w q w' user rows, y <> [] ->
  REGX_fit B Q ppf nb strat (Table k X) y w = Some (Val q, w') -> w_regressor w = None ->
  one_coefficient_each Q -> ro_dataX q <> [] -> rows <> [] ->
  exists r, REGX_predict Q q user (Table k rows) = Val r /\ distribution_over (length (np_unique y)) r /\
    Forall (fun p => 0 < p) r.
Proof.
  intros nb strat k X y w q w' user rows Hy H Hw HO Hd Hr.
  rewrite (REGX_row B Q ppf nb strat k X y w q w') by auto. unfold REGX_fit in H.
  eapply glm_positive; eauto. rewrite counts_length.
  destruct (REG_facts _ _ _ _ _ _ _ _ _ _ _ _ _ H Hd) as (_ & -> & _). reflexivity.
Qed.

Lemma REGy_glm : forall nb strat y r preds w q w' user test, y <> [] -> (0 < r)%nat ->
  length preds = (r * length y)%nat -> Forall (fun p => length p = length (np_unique y)) preds ->
  REGy_fit B Q ppf nb strat y preds w = Some (Val q, w') -> w_regressor w = None ->
  one_coefficient_each Q -> ro_dataX q <> [] ->
  test <> [] -> Forall (fun p => length p = length (np_unique y)) test ->
  exists p, REGy_predict Q q user test = Val p /\ distribution_over (length (np_unique y)) p /\
    Forall (fun v => 0 < v) p.
Proof.
  intros nb strat y r preds w q w' user test Hy Hr L HW H Hw HO Hd Ht HT.
  rewrite (REGy_row B Q ppf nb strat y r preds w q w') by auto.
  rewrite (REGy_fit_REG B Q ppf nb strat y r) in H by auto.
  rewrite <- (unique_repeated y r) by auto. eapply glm_positive; eauto.
  - intros Z. destruct y; [congruence|]. destruct r; [lia|]. discriminate.
  - rewrite counts_length. destruct (REG_facts _ _ _ _ _ _ _ _ _ _ _ _ _ H Hd) as (_ & -> & _). reflexivity.
Qed.

(** Two classes, the user's regression model. *)
Lemma REGX_two : forall nb strat k X y w q w' m m1 rows, length (np_unique y) = 2%nat ->
  REGX_fit B Q ppf nb strat (Table k X) y w = Some (Val q, w') -> w_regressor w = Some m ->
  always_predicts Q -> ro_dataX q <> [] -> rows <> [] ->
  exists row p, bin_counts nb (ro_cuts q) (length rows) rows row /\ rg_predict Q m1 row = Val p /\
    REGX_predict Q q (Some m1) (Table k rows) = Val [1 - clip01 p; clip01 p].
Proof.
  intros nb strat k X y w q w' m m1 rows H2 H Hw HA Hd Hr.
  set (row := counts nb (ro_cuts q) (length rows) rows). destruct (HA m1 row) as (p & Hp).
  exists row, p. split; [apply counts_spec|]. split; [auto|].
  rewrite (REGX_row B Q ppf nb strat k X y w q w') by auto. fold row.
  destruct (REG_fit_inv _ _ _ _ _ _ _ _ _ _ _ _ _ H) as (HC & _ & Hn & _ & HF & _). rewrite Hw, H2 in HF.
  rewrite H2 in Hn. exact (predict_two Q _ _ _ _ _ _ _ _ HF Hn Hp).
Qed.

Lemma REGy_two : forall nb strat y r preds w q w' m m1 test, length (np_unique y) = 2%nat -> (0 < r)%nat ->
  length preds = (r * length y)%nat -> Forall (fun p => length p = 2%nat) preds ->
  REGy_fit B Q ppf nb strat y preds w = Some (Val q, w') -> w_regressor w = Some m ->
  always_predicts Q -> ro_dataX q <> [] -> test <> [] -> Forall (fun p => length p = 2%nat) test ->
  exists row p, bin_counts nb (ro_cuts q) (length test) test row /\ rg_predict Q m1 row = Val p /\
    REGy_predict Q q (Some m1) test = Val [1 - clip01 p; clip01 p].
Proof.
  intros nb strat y r preds w q w' m m1 test H2 Hr L HW H Hw HA Hd Ht HT.
  assert (Hy : y <> []) by (intros ->; discriminate). rewrite <- H2 in HW, HT.
  set (row := counts nb (ro_cuts q) (length test) test). destruct (HA m1 row) as (p & Hp).
  exists row, p. split; [apply counts_spec|]. split; [auto|].
  rewrite (REGy_row B Q ppf nb strat y r preds w q w') by auto. fold row.
  rewrite (REGy_fit_REG B Q ppf nb strat y r) in H by auto.
  destruct (REG_fit_inv _ _ _ _ _ _ _ _ _ _ _ _ _ H) as (HC & _ & Hn & _ & HF & _).
  rewrite unique_repeated in * by auto. rewrite Hw, H2 in HF.
  rewrite H2 in Hn. exact (predict_two Q _ _ _ _ _ _ _ _ HF Hn Hp).
Qed.

(** Another number of classes. *)
Definition divided (ps : list R) (result : out (list R)) : Prop :=
  (Exists (fun p => 0 < p) ps -> result = Val (vdiv (map clip01 ps) (rsum (map clip01 ps)))) /\
  (Forall (fun p => p <= 0) ps -> result = NotANumber).

Lemma divided_normalise : forall ps, divided ps (normalise_many ps).
Proof. intros ps. split; intros H; [now apply normalise_many_val|now apply normalise_many_nan]. Qed.

Lemma REGX_many : forall nb strat k X y w q w' m user rows, length (np_unique y) <> 2%nat ->
  REGX_fit B Q ppf nb strat (Table k X) y w = Some (Val q, w') -> w_regressor w = Some m ->
  always_predicts Q -> ro_dataX q <> [] -> rows <> [] ->
  exists row ps, bin_counts nb (ro_cuts q) (length rows) rows row /\ length ps = length (np_unique y) /\
    (forall c, (c < length ps)%nat -> exists mc,
       rg_fit Q m (ro_dataX q) (col c (ro_dataY q)) = Val mc /\ rg_predict Q mc row = Val (nth c ps 0)) /\
    (Exists (fun p => 0 < p) ps ->
       REGX_predict Q q user (Table k rows) = Val (vdiv (map clip01 ps) (rsum (map clip01 ps)))) /\
    (Forall (fun p => p <= 0) ps -> REGX_predict Q q user (Table k rows) = NotANumber).
Proof.
  intros nb strat k X y w q w' m user rows H2 H Hw HA Hd Hr.
  set (row := counts nb (ro_cuts q) (length rows) rows).
  destruct (REG_fit_inv _ _ _ _ _ _ _ _ _ _ _ _ _ H) as (HC & _ & Hn & _ & HF & _). rewrite Hw in HF.
  destruct (predict_many Q _ _ _ _ _ q user row H2 HF Hn HA) as (ps & Lp & HP & EP).
  exists row, ps. split; [apply counts_spec|]. split; [auto|]. split; [now rewrite Lp|].
  rewrite (REGX_row B Q ppf nb strat k X y w q w') by auto. fold row. rewrite EP. apply divided_normalise.
Qed.

Lemma REGy_many : forall nb strat y r preds w q w' m user test, length (np_unique y) <> 2%nat -> y <> [] -> (0 < r)%nat ->
  length preds = (r * length y)%nat -> Forall (fun p => length p = length (np_unique y)) preds ->
  REGy_fit B Q ppf nb strat y preds w = Some (Val q, w') -> w_regressor w = Some m ->
  always_predicts Q -> ro_dataX q <> [] -> test <> [] -> Forall (fun p => length p = length (np_unique y)) test ->
  exists row ps, bin_counts nb (ro_cuts q) (length test) test row /\ length ps = length (np_unique y) /\
    (forall c, (c < length ps)%nat -> exists mc,
       rg_fit Q m (ro_dataX q) (col c (ro_dataY q)) = Val mc /\ rg_predict Q mc row = Val (nth c ps 0)) /\
    (Exists (fun p => 0 < p) ps ->
       REGy_predict Q q user test = Val (vdiv (map clip01 ps) (rsum (map clip01 ps)))) /\
    (Forall (fun p => p <= 0) ps -> REGy_predict Q q user test = NotANumber).
Proof.
  intros nb strat y r preds w q w' m user test H2 Hy Hr L HW H Hw HA Hd Ht HT.
  set (row := counts nb (ro_cuts q) (length test) test).
  pose proof (REGy_row B Q ppf nb strat y r preds w q w' user test Hy Hr L HW H Hd Ht HT) as ER.
  rewrite (REGy_fit_REG B Q ppf nb strat y r) in H by auto.
  destruct (REG_fit_inv _ _ _ _ _ _ _ _ _ _ _ _ _ H) as (HC & _ & Hn & _ & HF & _).
  rewrite unique_repeated in * by auto. rewrite Hw in HF.
  destruct (predict_many Q _ _ _ _ _ q user row H2 HF Hn HA) as (ps & Lp & HP & EP).
  exists row, ps. split; [apply counts_spec|]. split; [auto|]. split; [now rewrite Lp|].
  rewrite ER. fold row. rewrite EP. apply divided_normalise.
Qed.

(** The default model sees a bag of another size than the training set on another scale. *)
Lemma vmap2_scale : forall a u v, length u = length v ->
  (forall i, nth i u 0 = a * nth i v 0) -> forall p, rsum (vmap2 Rmult u p) = a * rsum (vmap2 Rmult v p).
Proof.
  intros a u. induction u as [|x u IH]; intros v L H p; destruct v as [|z v]; try discriminate; [simpl; lra|].
  destruct p as [|b p]; [simpl; lra|]. cbn [vmap2 rsum]. rewrite (IH v).
  - pose proof (H O) as E. simpl in E. rewrite E. ring.
  - now inversion L.
  - intros i. exact (H (Datatypes.S i)).
Qed.

Lemma REGX_glm_scale : forall nb strat k X y w q w' user size j, length (np_unique y) = 2%nat ->
  REGX_fit B Q ppf nb strat (Table k X) y w = Some (Val q, w') -> w_regressor w = None ->
  one_coefficient_each Q -> honest_source B (w_generator w) X y size -> (0 < size)%nat ->
  (j < length (ro_dataX q))%nat ->
  exists idx params t,
    training_pair nb (ro_cuts q) X y size (nth j (ro_dataX q) []) (nth j (ro_dataY q) []) idx /\
    glm_fit Q (ro_dataX q) (col 1 (ro_dataY q)) = Val params /\
    glm_predict params (nth j (ro_dataX q) []) = Val (logistic t) /\
    REGX_predict Q q user (Table k (examples X idx)) =
      Val [1 - logistic (INR (length X) / INR size * t); logistic (INR (length X) / INR size * t)].
Proof.
  intros nb strat k X y w q w' user size j H2 H Hw HO HH Hs Hj.
  assert (Hd : ro_dataX q <> []) by (intros Z; rewrite Z in Hj; simpl in Hj; lia).
  destruct (REG_pairs B Q ppf _ _ _ _ _ _ _ _ _ _ _ H HH) as (L1 & L2 & P).
  destruct (P j Hj) as (idx & T & FX & E).
  assert (Li : length idx = size) by apply T.
  assert (HX : (0 < length X)%nat).
  { destruct idx as [|i0 idx]; [simpl in Li; lia|]. apply Forall_inv in FX. lia. }
  set (row := counts nb (ro_cuts q) (length (examples X idx)) (examples X idx)).
  destruct (REG_fit_inv _ _ _ _ _ _ _ _ _ _ _ _ _ H) as (HC & _ & Hn & _ & HF & _).
  pose proof (REG_row_lengths _ _ _ _ _ _ _ _ _ _ H) as HR.
  destruct (REG_facts _ _ _ _ _ _ _ _ _ _ _ _ _ H Hd) as (_ & LK & _).
  rewrite Hw, H2 in HF. rewrite H2 in Hn.
  assert (Lr : length row = (nb * k)%nat) by (unfold row; rewrite counts_length, LK; reflexivity).
  assert (HR' : Forall (fun r => length r = length row) (ro_dataX q)) by (rewrite Lr; auto).
  destruct (predict_glm Q _ _ _ _ q user row (Nat.lt_0_succ 1) HF Hn HO Hd HR') as (ps & Lp & HP & EP).
  cbn [Nat.eqb] in *. destruct (HP O) as (params & EF & EL & _); [lia|].
  destruct ps as [|p ps]; [discriminate|]. cbn [nth hd] in *.
  exists idx, params, (rsum (vmap2 Rmult (nth j (ro_dataX q) []) params)).
  split; [auto|]. split; [auto|]. split.
  - unfold glm_predict. rewrite (HO _ _ _ _ HR Hd EF).
    rewrite Forall_forall in HR. rewrite (HR (nth j (ro_dataX q) [])) by (apply nth_In; auto).
    now rewrite Nat.eqb_refl.
  - rewrite (REGX_row B Q ppf nb strat k X y w q w').
    + fold row. rewrite EP, EL.
      rewrite (vmap2_scale (INR (length X) / INR size) row (nth j (ro_dataX q) [])).
      * reflexivity.
      * rewrite E. unfold row. now rewrite !counts_length.
      * intros i. rewrite E. unfold row. rewrite examples_length, Li. now apply counts_scale.
    + exact H.
    + auto.
    + intros Z. apply (f_equal (@length _)) in Z. rewrite examples_length in Z. simpl in Z. lia.
Qed.

(** ** Wrong shapes *)

Lemma REGX_more_attributes : forall nb strat k X y w q w' user k' rows,
  REGX_fit B Q ppf nb strat (Table k X) y w = Some (Val q, w') -> ro_dataX q <> [] -> (k < k')%nat ->
  REGX_predict Q q user (Table k' rows) = Err IndexError.
Proof.
  intros nb strat k X y w q w' user k' rows H Hd Hk. unfold REGX_fit in H.
  destruct (REG_facts _ _ _ _ _ _ _ _ _ _ _ _ _ H Hd) as (HS & HL & HA).
  unfold REGX_predict, test_row. rewrite HL. destruct (Nat.leb_spec k' k); [lia|].
  destruct rows as [|r rows]; [reflexivity|].
  rewrite (describe_val nb) by (auto; simpl; lia). reflexivity.
Qed.

End Properties.
