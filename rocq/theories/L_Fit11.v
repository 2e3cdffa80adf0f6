(** * Proofs about DFy after failing fits (C132). *)

From Coq Require Import Reals List ZArith Lia Lra Bool Arith.
From Coq Require FunctionalExtensionality.
From Verif Require Import Num Spec L_Num M_Baselines L_Baselines M_Eoq M_Base M_Bags M_Search M_Optim Spec_Optim L_Optim2 L_Optim4 L_Optim5 M_Match
  Spec_Match L_Match L_Match2 L_Match3 L_Match6 M_History M_Fit M_Fit2 M_Fit3 M_Fit4 Spec_Fit Spec_Fit4 L_Fit3 L_Fit6 L_Fit7 L_Fit8 L_Rebin.
Import ListNotations.
Open Scope R_scope.

Lemma prediction_columns : forall n rows j, Spec_Fit4.columns n rows -> (j < n)%nat -> prediction_column (Matrix rows) j = Val (col j rows).
Proof.
  intros n rows j H Hj. unfold prediction_column. destruct rows as [|r rows]; [cbn; try rewrite orb_true_r; reflexivity|].
  inversion H as [|? ? L _]; subst. unfold width. cbn [hd]. destruct (Nat.ltb_spec j (length r)); [reflexivity|lia].
Qed.

Lemma descriptors_le : forall n, (n_descriptors n <= n)%nat.
Proof. intros n. unfold n_descriptors. destruct (Nat.eqb_spec n 2); lia. Qed.

Lemma collect_seq_length : forall {B} (f : nat -> out B) k l, collect (map f (seq 0 k)) = Val l -> length l = k.
Proof. intros B f k l H. apply collect_inv in H. apply (f_equal (@length _)) in H. rewrite !map_length, seq_length in H. congruence. Qed.

Lemma fill_cuts_val : forall ppf n_bins strat y P cuts, Spec_Fit4.columns (length (np_unique y)) P ->
  DFy_fill_cuts ppf n_bins strat y (Matrix P) = (cuts, Val tt) <-> DFy_cuts ppf n_bins strat y P = Val cuts.
Proof.
  intros ppf n_bins strat y P cuts HC. unfold DFy_fill_cuts. rewrite fill_val. unfold DFy_cuts.
  rewrite (map_ext_in _ (fun d => compute_bincuts ppf (col d P) y (np_unique y) n_bins strat (Some (0, 1)))); [reflexivity|].
  intros d Hd. apply in_seq in Hd. pose proof (descriptors_le (length (np_unique y))).
  rewrite (prediction_columns (length (np_unique y)) P d HC) by lia. reflexivity.
Qed.

(** One column, before the cumulative sum. *)
Lemma dfy_column : forall n_bins cuts ye rows c v, length ye = length rows ->
  DFy_fill_column n_bins (length cuts) cuts ye rows c = (v, Val tt) <-> dfy_represent PDF cuts (select c ye rows) = Val v.
Proof.
  intros n_bins cuts ye rows c v HL. unfold DFy_fill_column. rewrite HL, Nat.eqb_refl. cbn [negb]. unfold dfy_represent, df_blocks.
  destruct (select c ye rows) as [|r0 rs]; [split; intros H; inversion H|]. set (sel := r0 :: rs).
  rewrite (combine_map (fun dc => histogram (col (fst dc) sel) (snd dc)) cuts [] 0). cbn [fst snd].
  rewrite (map_ext_in _ (fun att => histogram (col att sel) (nth att cuts []))) by (intros a _; now rewrite Nat.sub_0_r).
  set (f := fun att => histogram (col att sel) (nth att cuts [])). set (l := seq 0 (length cuts)).
  destruct (fill_rows (repeat O n_bins) f l) as [counts r] eqn:EF.
  destruct (collect (map f l)) as [vs| |] eqn:EC; cbn [omap].
  - pose proof (proj2 (fill_val (repeat O n_bins) f l vs) EC) as K. rewrite EF in K. inversion K. subst.
    split; intros H; inversion H; reflexivity.
  - split; [|discriminate]. intros H. destruct r as [[]| |]; [|inversion H..]. apply fill_val in EF. congruence.
  - split; [|discriminate]. intros H. destruct r as [[]| |]; [|inversion H..]. apply fill_val in EF. congruence.
Qed.

Lemma collect_omap : forall {B C} (g : B -> C) (f : Z -> out B) l,
  collect (map (fun c => omap g (f c)) l) = omap (map g) (collect (map f l)).
Proof.
  intros B C g f l. induction l as [|c l IH]; [reflexivity|]. cbn [map collect]. rewrite IH.
  destruct (f c); cbn [omap obind]; try reflexivity. destruct (collect (map f l)); reflexivity.
Qed.

Definition shape (kind : representation) (cols : list (list R)) : list (list R) := match kind with PDF => cols | CDF => map cumsum cols end.

Lemma shape_length : forall kind cols, length (shape kind cols) = length cols.
Proof. intros [|] cols; [reflexivity|apply map_length]. Qed.

Lemma represent_kind : forall kind cuts rows, dfy_represent kind cuts rows =
  match kind with PDF => dfy_represent PDF cuts rows | CDF => omap cumsum (dfy_represent PDF cuts rows) end.
Proof. intros [|] cuts rows; [reflexivity|]. unfold dfy_represent. destruct (df_blocks cuts rows); reflexivity. Qed.

Lemma shape_collect : forall kind cuts ye rows classes, collect (map (fun c => dfy_represent kind cuts (select c ye rows)) classes) =
  omap (shape kind) (collect (map (fun c => dfy_represent PDF cuts (select c ye rows)) classes)).
Proof.
  intros kind cuts ye rows classes. destruct kind.
  - destruct (collect _); reflexivity.
  - rewrite (map_ext _ (fun c => omap cumsum (dfy_represent PDF cuts (select c ye rows)))) by (intros; apply (represent_kind CDF)).
    apply collect_omap.
Qed.

Lemma concat_length : forall {B} n (l : list (list B)), Forall (fun b => length b = n) l -> length (concat l) = (n * length l)%nat.
Proof. intros B n l H. induction H as [|b l Hb _ IH]; [cbn; lia|]. cbn [concat length]. rewrite app_length, Hb, IH. lia. Qed.

Lemma cumsum_length' : forall l, length (cumsum l) = length l.
Proof. intros l. unfold cumsum. generalize 0. induction l as [|a l IH]; intros r; [reflexivity|]. cbn. now rewrite IH. Qed.

Lemma test_length : forall kind n_bins nd cuts p t, Forall (fun c => length c = S n_bins) cuts ->
  DFy_test_distribution kind nd (Some cuts) p = Val t -> length t = (n_bins * nd)%nat.
Proof.
  intros kind n_bins nd cuts p t HC H. unfold DFy_test_distribution in H. destruct (collect _) as [hs| |] eqn:E; try discriminate. cbn [obind] in H.
  pose proof (collect_seq_length _ _ _ E) as LH. destruct (length (as_rows p)) as [|m]; [discriminate|].
  assert (LB : length (concat (map (fun h => vdiv (map INR h) (INR (S m))) hs)) = (n_bins * nd)%nat).
  { rewrite (concat_length n_bins), map_length, LH; [reflexivity|]. apply Forall_forall. intros b Hb. apply in_map_iff in Hb. destruct Hb as (h & <- & Hh).
    unfold vdiv. rewrite !map_length. apply collect_inv in E. assert (I : In (Val h) (map Val hs)) by now apply in_map. rewrite <- E in I.
    apply in_map_iff in I. destruct I as (d & Ed & _). destruct (prediction_column p d) as [xs| |]; try discriminate. cbn [obind] in Ed.
    unfold item in Ed. destruct (nth_error cuts d) as [c|] eqn:En; try discriminate. cbn [obind] in Ed. unfold histogram in Ed.
    destruct (non_decreasing c); [|discriminate]. injection Ed as <-. unfold tabulate. rewrite map_length, seq_length.
    apply nth_error_In in En. rewrite Forall_forall in HC. rewrite (HC c En). lia. }
  injection H as <-. destruct kind; [exact LB|]. now rewrite cumsum_length'.
Qed.

Lemma cuts_lengths : forall ppf n_bins strat y p cuts, DFy_fill_cuts ppf n_bins strat y p = (cuts, Val tt) ->
  Forall (fun c => length c = S n_bins) cuts /\ length cuts = n_descriptors (length (np_unique y)).
Proof.
  intros ppf n_bins strat y p cuts H. apply fill_val in H. split; [|apply (collect_seq_length _ _ _ H)].
  apply Forall_forall. intros c Hc. apply collect_inv in H. assert (I : In (Val c) (map Val cuts)) by now apply in_map. rewrite <- H in I.
  apply in_map_iff in I. destruct I as (d & Ed & _). destruct (prediction_column p d) as [xs| |]; try discriminate. cbn [obind] in Ed.
  eapply cuts_length. exact Ed.
Qed.

Lemma estimate_same : forall {B1 B2} N cvx crit tol (m1 : matcher B1) (m2 : matcher B2) t, mt_classes m1 = mt_classes m2 -> mt_bins m1 = mt_bins m2 ->
  mt_T m1 = mt_T m2 -> (crit = Named L2 -> mt_l2 m1 = mt_l2 m2) -> mt_problem m1 = mt_problem m2 -> mt_mixtures m1 = mt_mixtures m2 ->
  snd (estimate N cvx crit tol m1 t) = snd (estimate N cvx crit tol m2 t).
Proof.
  intros B1 B2 N cvx crit tol m1 m2 t H1 H2 H3 H4 H5 H6. unfold estimate. cbv zeta.
  assert (TC : train_column m1 = train_column m2) by (unfold train_column; now rewrite H2, H3).
  rewrite H1, H2, H3, H5, H6, TC. destruct crit as [[]|f].
  - destruct (solve_hd _ _ _ _ _ _) as [[]| |]; reflexivity.
  - now rewrite H4.
  - destruct (solve_l1 _ _ _ _ _ _) as [[]| |]; reflexivity.
  - reflexivity.
  - destruct (Nat.ltb _ _); [reflexivity|]. destruct (global_search _ _ _ _ _ _) as [[]| |]; reflexivity.
Qed.

Definition even_cuts (n : nat) : list edge := NegInf :: map Fin (inner (uniform_edges n 0 1)) ++ [PosInf].

Lemma equal_width_unit : forall ppf x y classes n, (0 < n)%nat -> compute_bincuts ppf x y classes n EqualWidth (Some (0, 1)) = Val (even_cuts n).
Proof. intros ppf x y classes n Hn. unfold compute_bincuts. destruct n as [|m]; [lia|]. reflexivity. Qed.

Lemma even_shape : forall n, (0 < n)%nat -> length (even_cuts n) = S n /\ ascending_edges (even_cuts n).
Proof.
  intros n Hn. destruct (equal_width_cuts (fun _ => 0) [] [] [] n (Some (0, 1)) Hn ltac:(lra)) as (cuts & E & K).
  rewrite equal_width_unit in E by exact Hn. injection E as <-. split; apply K.
Qed.

Lemma collect_const : forall {B C} (f : B -> out C) v l, (forall a, In a l -> f a = Val v) -> collect (map f l) = Val (repeat v (length l)).
Proof.
  intros B C f v l. induction l as [|a l IH]; intros H; [reflexivity|]. cbn [map collect length repeat]. rewrite (H a (or_introl eq_refl)).
  rewrite IH by (intros b Hb; apply H; now right). reflexivity.
Qed.

Lemma cols_length : forall blank column classes cols, DFX_fill_train blank column classes = (cols, Val tt) -> length cols = length classes.
Proof. intros blank column classes cols H. apply fill_train_val in H. apply (f_equal (@length _)) in H. rewrite !map_length in H. congruence. Qed.

Lemma estimate_problem : forall {B} N cvx crit tol (m : matcher B) t, length t = mt_bins m -> match mt_problem m with None => True | Some P => cp_d P = mt_bins m end ->
  match mt_problem (fst (estimate N cvx crit tol m t)) with None => True | Some P => cp_d P = mt_bins m end.
Proof.
  intros B N cvx crit tol m t Hl H. unfold estimate. cbv zeta.
  assert (RP : forall P P' x, run_problem cvx P t = Val (P', x) -> cp_d P' = cp_d P).
  { intros P P' x E. unfold run_problem in E. destruct (valid_parameter _ _); [|discriminate]. destruct (cvx _ _ _); [|discriminate]. injection E as <- <-. reflexivity. }
  destruct crit as [[]|f]; try exact H.
  - destruct (solve_hd _ _ _ _ _ _) as [[P' x]| |] eqn:E; try exact H. cbn. unfold solve_hd in E. destruct (mt_problem m) as [P|].
    + rewrite (RP _ _ _ E). exact H.
    + destruct (Nat.eqb _ _); [|discriminate]. rewrite (RP _ _ _ E). exact Hl.
  - destruct (solve_l1 _ _ _ _ _ _) as [[P' x]| |] eqn:E; try exact H. cbn. unfold solve_l1 in E. destruct (mt_problem m) as [P|].
    + rewrite (RP _ _ _ E). exact H.
    + destruct (Nat.eqb _ _); [|discriminate]. rewrite (RP _ _ _ E). exact Hl.
  - destruct (Nat.ltb _ _); [exact H|]. destruct (global_search _ _ _ _ _ _) as [[]| |]; exact H.
Qed.

Lemma estimate_cached : forall {B1 B2} N cvx crit tol (m1 : matcher B1) (m2 : matcher B2) t P, needs_cvx crit = true -> mt_problem m1 = Some P -> mt_problem m2 = Some P ->
  snd (estimate N cvx crit tol m1 t) = snd (estimate N cvx crit tol m2 t).
Proof.
  intros B1 B2 N cvx crit tol m1 m2 t P HC H1 H2. unfold estimate. cbv zeta. rewrite H1, H2. destruct crit as [[]|f]; try discriminate HC.
  - cbn [solve_hd]. destruct (run_problem _ _ _) as [[]| |]; reflexivity.
  - cbn [solve_l1]. destruct (run_problem _ _ _) as [[]| |]; reflexivity.
Qed.

Lemma estimate_caches : forall {B} N cvx crit tol (m : matcher B) t m' x, needs_cvx crit = true -> estimate N cvx crit tol m t = (m', Val x) -> mt_problem m' <> None.
Proof.
  intros B N cvx crit tol m t m' x HC H. unfold estimate in H. cbv zeta in H. destruct crit as [[]|f]; try discriminate HC.
  - destruct (solve_hd _ _ _ _ _ _) as [[P' z]| |]; inversion H. discriminate.
  - destruct (solve_l1 _ _ _ _ _ _) as [[P' z]| |]; inversion H. discriminate.
Qed.

Section Object.
Context {X M : Type} (A : nat -> algorithm X M) (ppf : R -> R) (N : numerics) (cvx : cvx_solver) (fuel : nat) (kind : representation)
  (n_bins : nat) (strat : strategy) (crit : criterion) (tol : R).
Notation calls := (DFy_calls A ppf N cvx fuel kind n_bins strat crit tol).
Notation after := (DFy_after_fit A ppf N cvx fuel kind n_bins strat crit tol).
Notation fit := (DFy_object_fit A ppf N fuel kind n_bins strat crit).
Notation predict := (DFy_object_predict A N cvx kind crit tol).

Lemma predict_base s x given w : let s' := fst (predict x given s w) in
  dy_base s' = snd (UC_predict A (dy_base s) w x given) /\ dy_cuts s' = dy_cuts s /\ dy_train s' = dy_train s /\ dy_l2 s' = dy_l2 s.
Proof.
  cbv zeta. unfold DFy_object_predict. destruct (UC_predict A (dy_base s) w x given) as [r q]. cbn [snd].
  destruct r as [[]| |]; try solve [cbn; auto]. destruct (classes_ q) as [cl|]; [|solve [cbn; auto]]. destruct (predictions_test_ q) as [p|]; [|solve [cbn; auto]].
  destruct (DFy_test_distribution _ _ _ _) as [t| |]; try solve [cbn; auto]. destruct (dy_train s) as [[d cols]|] eqn:ET; [|solve [cbn; auto]]. cbv zeta.
  match goal with |- context [if ?b then _ else _] => destruct b end; [solve [cbn; auto]|].
  destruct (estimate N cvx crit tol (dy_matcher d cols s) t) as [m r]; cbn; auto.
Qed.

Lemma fit_base x y given s w r s' w' : fit x y given s w = (r, s', w') -> exists r0, UC_fit A (dy_base s) w x y given = (r0, dy_base s', w').
Proof.
  unfold DFy_object_fit. destruct (UC_fit A (dy_base s) w x y given) as [[r0 q] w0]. intros H. exists r0.
  destruct r0 as [[]| |]; [|injection H as <- <- <-; reflexivity..]. cbv zeta in H.
  destruct (predictions_train_ q); [|injection H as <- <- <-; reflexivity].
  destruct (DFy_fill_cuts _ _ _ _ _) as [cuts [[]| |]]; [|injection H as <- <- <-; reflexivity..].
  destruct (DFX_fill_train _ _ _) as [cols [[]| |]]; injection H as <- <- <-; reflexivity.
Qed.

(** The constructor's flags never change. *)
Lemma calls_flags s : calls s -> probabilistic (dy_base s) = true /\ needs_predictions_train (dy_base s) = true.
Proof.
  intros C. induction C as [et es|s x y given w r s' w' _ [I1 I2] F|s x given w _ [I1 I2]]; [split; reflexivity| |].
  - destruct (fit_base _ _ _ _ _ _ _ _ F) as [r0 U]. destruct (UC_fit_keeps A _ _ _ _ _ _ _ _ U) as (_ & _ & K3 & K4 & _). split; congruence.
  - destruct (predict_base s x given w) as (EB & _). rewrite EB. destruct (UC_predict A (dy_base s) w x given) as [r q] eqn:U.
    destruct (UC_predict_keeps A _ _ _ _ _ _ U) as (_ & _ & K3 & K4 & _). cbn [snd]. split; congruence.
Qed.

Lemma after_calls y s : after y s -> calls s.
Proof. intros H. induction H; [eapply DFy_calls_fit; eassumption|now apply DFy_calls_predict]. Qed.

(** The state after a call of fit that returns. *)
Definition returned (q : quantifier_object) (nd : nat) (cuts : list (list edge)) (cols : list (list R)) (s : dfy_object) : dfy_object :=
  {| dy_base := q; dy_cuts := Some cuts; dy_train := Some ((n_bins * nd)%nat, cols);
     dy_l2 := match crit with
              | Named L2 => option_map (pair (length cols)) (compute_l2_param_train N fuel (n_bins * nd) (length cols) (matrix_of_columns cols))
              | _ => dy_l2 s
              end;
     dy_problem := None; dy_mixtures := None |}.

Lemma given_train s x y P w q w' : calls s -> UC_fit A (dy_base s) w x y (Some (Matrix P)) = (Val tt, q, w') -> predictions_train_ q = Some (Matrix P).
Proof.
  intros C U. destruct (calls_flags _ C) as [HP HN]. unfold UC_fit in U. cbv zeta in U.
  cbn [with_classes needs_predictions_train estimator_train estimator_test probabilistic] in U. rewrite HN, HP in U.
  destruct (estimator_train (dy_base s)); cbn [andb] in U;
    destruct (ensure_fitted A w _ x y) as [wa| |]; try discriminate; destruct (ensure_fitted A wa _ x y); try discriminate; injection U as <- <-; reflexivity.
Qed.

Lemma fit_val x y P s w s' w' : calls s -> Spec_Fit4.columns (length (np_unique y)) P -> y <> [] ->
  fit x y (Some (Matrix P)) s w = (Val tt, s', w') -> exists q cuts cols, UC_fit A (dy_base s) w x y (Some (Matrix P)) = (Val tt, q, w') /\
    DFy_cuts ppf n_bins strat y P = Val cuts /\ length (y_ext y (length P)) = length P /\
    collect (map (fun c => dfy_represent kind cuts (select c (y_ext y (length P)) P)) (np_unique y)) = Val cols /\
    s' = returned q (n_descriptors (length (np_unique y))) cuts cols s.
Proof.
  intros C HC HY F. unfold DFy_object_fit in F. destruct (UC_fit A (dy_base s) w x y (Some (Matrix P))) as [[r0 q] w0] eqn:U.
  destruct r0 as [[]| |]; [|discriminate..]. cbv zeta in F. rewrite (given_train _ _ _ _ _ _ _ C U) in F. cbn [as_rows] in F.
  destruct (DFy_fill_cuts _ _ _ _ _) as [cuts [[]| |]] eqn:EC; [|discriminate..]. apply fill_cuts_val in EC; [|exact HC].
  destruct (DFX_fill_train _ _ _) as [cols [[]| |]] eqn:ET; [|discriminate..]. apply fill_train_val in ET.
  pose proof (collect_seq_length _ _ _ EC) as Lc. rewrite <- Lc in ET.
  assert (HL : length (y_ext y (length P)) = length P).
  { destruct (Nat.eq_dec (length (y_ext y (length P))) (length P)) as [E|E]; [exact E|]. exfalso.
    destruct y as [|z y]; [congruence|]. assert (I : In z (np_unique (z :: y))) by (apply np_unique_in; now left).
    destruct (np_unique (z :: y)) as [|c cs]; [destruct I|]. destruct cols as [|v cols]; [discriminate|]. cbn [map] in ET. inversion ET as [[E1 E2]].
    unfold DFy_fill_column in E1. destruct (Nat.eqb_spec (length (y_ext (z :: y) (length P))) (length P)); [contradiction|discriminate]. }
  exists q, cuts, (shape kind cols). inversion F; subst. split; [reflexivity|]. split; [exact EC|]. split; [exact HL|]. split.
  - rewrite shape_collect. apply (map_val_pair _ (fun c => dfy_represent PDF cuts (select c (y_ext y (length P)) P))) in ET.
    + rewrite ET. reflexivity.
    + intros c v _. now apply dfy_column.
  - unfold returned. reflexivity.
Qed.

Lemma test_distribution n cuts rows : Spec_Fit4.columns n rows -> length cuts = n_descriptors n -> rows <> [] ->
  DFy_test_distribution kind (n_descriptors n) (Some cuts) (Matrix rows) = dfy_represent kind cuts rows.
Proof.
  intros HC HL HR. unfold DFy_test_distribution, dfy_represent, df_blocks. destruct rows as [|r0 rs]; [congruence|]. set (rows := r0 :: rs) in *.
  rewrite (combine_map (fun dc => histogram (col (fst dc) rows) (snd dc)) cuts [] 0). cbn [fst snd]. rewrite HL.
  assert (EQ : map (fun d => obind (prediction_column (Matrix rows) d) (fun x => obind (item cuts d) (histogram x))) (seq 0 (n_descriptors n)) =
    map (fun d => histogram (col d rows) (nth (d - 0) cuts [])) (seq 0 (n_descriptors n))).
  { apply map_ext_in. intros d Hd. apply in_seq in Hd. pose proof (descriptors_le n). rewrite (prediction_columns n rows d HC) by lia. cbn [obind].
    unfold item. destruct (nth_error cuts d) as [e|] eqn:E.
    - rewrite Nat.sub_0_r, (nth_error_nth _ _ _ E). reflexivity.
    - apply nth_error_None in E. lia. }
  rewrite EQ. destruct (collect _); reflexivity.
Qed.

Theorem fit_returns x y P s w s' w' : calls s -> y <> [] -> Spec_Fit4.columns (length (np_unique y)) P ->
  fit x y (Some (Matrix P)) s w = (Val tt, s', w') ->
  exists m, DFy_fit ppf N fuel kind n_bins strat crit y P = Val m /\
  forall t rows w2, rows <> [] -> Spec_Fit4.columns (length (np_unique y)) rows ->
    snd (predict t (Some (Matrix rows)) s' w2) = snd (matching_predict N cvx crit tol m rows).
Proof.
  intros C HY HC F. destruct (fit_val _ _ _ _ _ _ _ C HC HY F) as (q & cuts & cols & U & EC & HL & ET & ->).
  pose proof (collect_seq_length _ _ _ EC) as Lc. destruct (calls_flags _ C) as [HP _].
  destruct (UC_fit_keeps A _ _ _ _ _ _ _ _ U) as (_ & _ & K3 & _ & K5).
  exists (new_matcher N fuel crit (n_bins * length cuts) (dfy_represent kind cuts) cols). split.
  { unfold DFy_fit. rewrite EC. cbn [obind]. unfold fit_matching. rewrite HL, Nat.eqb_refl, ET. reflexivity. }
  intros t rows w2 HR HC2. unfold DFy_object_predict, UC_predict. cbv zeta. cbn [returned dy_base]. rewrite K3, HP.
  cbn [with_test classes_ predictions_test_ dy_cuts dy_train dy_problem]. rewrite K5. cbn [returned dy_cuts].
  rewrite (test_distribution _ _ _ HC2 Lc HR). unfold matching_predict. cbn [new_matcher mt_represent].
  destruct (dfy_represent kind cuts rows) as [tt| |] eqn:ER; try reflexivity.
  assert (LT : length cols = length (np_unique y)).
  { apply collect_inv in ET. apply (f_equal (@length _)) in ET. rewrite !map_length in ET. congruence. }
  assert (Ld : length tt = (n_bins * n_descriptors (length (np_unique y)))%nat).
  { apply (proj2 (fill_cuts_val ppf n_bins strat y P cuts HC)) in EC. destruct (cuts_lengths _ _ _ _ _ _ EC) as [Fc _].
    eapply test_length; [exact Fc|]. rewrite (test_distribution (length (np_unique y)) cuts rows HC2 Lc HR). exact ER. }
  cbn [dy_train returned dy_problem]. rewrite andb_false_r, Ld, LT, !Nat.eqb_refl. cbn [negb orb andb]. rewrite andb_false_r. cbn [negb andb].
  match goal with |- context [estimate N cvx crit tol ?m tt] => set (m1 := m) end.
  transitivity (snd (estimate N cvx crit tol m1 tt)); [destruct (estimate N cvx crit tol m1 tt); reflexivity|].
  apply estimate_same; unfold m1; cbn [dy_matcher new_matcher mt_classes mt_bins mt_T mt_l2 mt_problem mt_mixtures returned dy_problem dy_mixtures dy_l2];
    try reflexivity.
  - now rewrite Lc.
  - intros EL. rewrite Lc, EL. destruct (compute_l2_param_train _ _ _ _ _); cbn [option_map]; [now rewrite Nat.eqb_refl|reflexivity].
Qed.

(** When the model of C49 returns, so does fit, for an object without estimators. *)
Theorem fit_when x y P s w : calls s -> estimator_train (dy_base s) = None -> estimator_test (dy_base s) = None -> y <> [] ->
  Spec_Fit4.columns (length (np_unique y)) P ->
  ((exists m, DFy_fit ppf N fuel kind n_bins strat crit y P = Val m) <-> exists s' w', fit x y (Some (Matrix P)) s w = (Val tt, s', w')).
Proof.
  intros C E1 E2 HY HC. split.
  - intros [m Em]. destruct (calls_flags _ C) as [HP HN]. unfold DFy_object_fit, UC_fit. cbv zeta.
    cbn [with_classes needs_predictions_train estimator_train estimator_test probabilistic]. rewrite E1, E2, HP, HN. cbn [andb ensure_fitted].
    cbn [with_train predictions_train_ as_rows]. unfold DFy_fit in Em. destruct (DFy_cuts _ _ _ _ _) as [cuts| |] eqn:EC; try discriminate. cbn [obind] in Em.
    rewrite (proj2 (fill_cuts_val ppf n_bins strat y P cuts HC) EC). pose proof (collect_seq_length _ _ _ EC) as Lc. rewrite <- Lc.
    unfold fit_matching in Em. destruct (Nat.eqb_spec (length (y_ext y (length P))) (length P)) as [HL|]; [|discriminate].
    rewrite shape_collect in Em. destruct (collect _) as [cols| |] eqn:ET; try discriminate.
    apply (map_val_pair (DFy_fill_column n_bins (length cuts) cuts (y_ext y (length P)) P)) in ET; [|intros c v _; now apply dfy_column].
    apply (proj2 (fill_train_val (repeat 0 (n_bins * length cuts)) _ _ _)) in ET. rewrite ET. eauto.
  - intros (s' & w' & F). destruct (fit_returns _ _ _ _ _ _ _ C HY HC F) as (m & Em & _). eauto.
Qed.

(** ** What stays the same between a fit that returned and the next *)

Definition settled (n : nat) (s : dfy_object) : Prop := exists classes cuts cols, classes_ (dy_base s) = Some classes /\ length classes = n /\
  dy_cuts s = Some cuts /\ Forall (fun c => length c = S n_bins) cuts /\ length cuts = n_descriptors n /\
  dy_train s = Some ((n_bins * n_descriptors n)%nat, cols) /\ length cols = n /\
  (strat = EqualWidth -> cuts = repeat (even_cuts n_bins) (n_descriptors n)) /\ (n_descriptors n <> 0%nat -> n_bins <> 0%nat) /\
  match dy_problem s with None => True | Some P => cp_d P = (n_bins * n_descriptors n)%nat end.

Lemma after_settled y0 s : after y0 s -> settled (length (np_unique y0)) s.
Proof.
  intros H. induction H as [s0 x given w s w' C F|s x given w _ (classes & cuts & cols & I1 & I2 & I3 & I4 & I5 & I6 & I7 & I8 & I9 & I10)].
  - unfold DFy_object_fit in F. destruct (UC_fit A (dy_base s0) w x y0 given) as [[r0 q] w0] eqn:U.
    destruct (UC_fit_keeps A _ _ _ _ _ _ _ _ U) as (_ & _ & _ & _ & K5). destruct r0 as [[]| |]; [|discriminate..]. cbv zeta in F.
    destruct (predictions_train_ q) as [p|]; [|discriminate]. destruct (DFy_fill_cuts _ _ _ _ _) as [cuts [[]| |]] eqn:EC; [|discriminate..].
    destruct (DFX_fill_train _ _ _) as [cols [[]| |]] eqn:ET; [|discriminate..]. injection F as <- <-.
    destruct (cuts_lengths _ _ _ _ _ _ EC) as [L1 L2]. exists (np_unique y0), cuts, (shape kind cols).
    assert (NB : n_descriptors (length (np_unique y0)) <> 0%nat -> n_bins <> 0%nat).
    { intros Hn ->. apply fill_val in EC. destruct (n_descriptors _) as [|k]; [congruence|]. cbn [seq map collect] in EC.
      destruct (prediction_column p 0); cbn [obind] in EC; try discriminate. }
    cbn [dy_base dy_cuts dy_train dy_problem]. split; [exact K5|]. split; [reflexivity|]. split; [reflexivity|]. split; [exact L1|]. split; [exact L2|].
    split; [reflexivity|]. split; [rewrite shape_length; apply (cols_length _ _ _ _ ET)|]. split; [|split; [exact NB|exact I]].
    intros EW. apply fill_val in EC. rewrite EW in EC.
    assert (HV : forall d, In d (seq 0 (n_descriptors (length (np_unique y0)))) -> obind (prediction_column p d)
      (fun x0 => compute_bincuts ppf x0 y0 (np_unique y0) n_bins EqualWidth (Some (0, 1))) = Val (even_cuts n_bins)).
    { intros d Hd. assert (Hn : n_bins <> 0%nat) by (apply NB; destruct (n_descriptors _); [destruct Hd|discriminate]).
      apply collect_inv in EC. assert (Hi : In (obind (prediction_column p d) (fun x0 => compute_bincuts ppf x0 y0 (np_unique y0) n_bins EqualWidth (Some (0, 1)))) (map Val cuts)).
      { rewrite <- EC. exact (in_map (fun d => obind (prediction_column p d) (fun x0 => compute_bincuts ppf x0 y0 (np_unique y0) n_bins EqualWidth (Some (0, 1)))) _ _ Hd). }
      apply in_map_iff in Hi. destruct Hi as (v & Ev & _). destruct (prediction_column p d); try discriminate. cbn [obind].
      apply equal_width_unit. lia. }
    rewrite (collect_const _ _ _ HV), seq_length in EC. injection EC as <-. reflexivity.
  - destruct (predict_base s x given w) as (EB & E1 & E2 & E3). set (s' := fst (predict x given s w)) in *.
    assert (EK : classes_ (dy_base s') = Some classes).
    { rewrite EB. destruct (UC_predict A (dy_base s) w x given) as [r q] eqn:U. destruct (UC_predict_keeps A _ _ _ _ _ _ U) as (_ & _ & _ & _ & K5).
      cbn [snd]. congruence. }
    exists classes, cuts, cols. rewrite E1, E2. repeat (split; [assumption|]).
    unfold s', DFy_object_predict. destruct (UC_predict A (dy_base s) w x given) as [r q]. destruct r as [[]| |]; try exact I10.
    destruct (classes_ q) as [cl|] eqn:Ecl; [|exact I10]. destruct (predictions_test_ q) as [p|]; [|exact I10].
    destruct (DFy_test_distribution kind _ (dy_cuts s) p) as [t| |] eqn:ET; try exact I10. rewrite I6. cbv zeta.
    match goal with |- context [if ?b then _ else _] => destruct b eqn:EQB end; [exact I10|].
    assert (Hd : needs_cvx crit = true -> dy_problem s = None -> length t = (n_bins * n_descriptors (length (np_unique y0)))%nat).
    { intros H1 H2. rewrite H1, H2 in EQB. cbn [andb negb] in EQB. apply orb_false_iff in EQB. destruct EQB as [EQB _]. apply negb_false_iff, Nat.eqb_eq in EQB. exact EQB. }
    match goal with |- context [estimate N cvx crit tol ?m t] => set (m1 := m) end.
    assert (EP : match mt_problem (fst (estimate N cvx crit tol m1 t)) with None => True | Some P => cp_d P = (n_bins * n_descriptors (length (np_unique y0)))%nat end).
    { destruct (needs_cvx crit) eqn:EN.
      - destruct (dy_problem s) as [P|] eqn:EP.
        + unfold estimate. cbv zeta. assert (EM : mt_problem m1 = Some P) by exact EP. rewrite EM.
          assert (RP : forall P' z, run_problem cvx P t = Val (P', z) -> cp_d P' = cp_d P).
          { intros P' z E. unfold run_problem in E. destruct (valid_parameter _ _); [|discriminate]. destruct (cvx _ _ _); [|discriminate]. injection E as <- <-. reflexivity. }
          destruct crit as [[]|f]; try discriminate EN; cbn [solve_hd solve_l1]; destruct (run_problem cvx P t) as [[P' z]| |] eqn:ER; cbn [fst];
            try (rewrite EM; exact I10); cbn [with_problem mt_problem]; rewrite (RP _ _ eq_refl); exact I10.
        + apply (estimate_problem N cvx crit tol m1 t); [exact (Hd eq_refl eq_refl)|]. change (mt_problem m1) with (dy_problem s). rewrite EP. exact I.
      - assert (ES : mt_problem (fst (estimate N cvx crit tol m1 t)) = mt_problem m1).
        { unfold estimate. cbv zeta. destruct crit as [[]|f]; try discriminate EN; try reflexivity. destruct (Nat.ltb _ _); [reflexivity|].
          destruct (global_search _ _ _ _ _ _) as [[]| |]; reflexivity. }
        rewrite ES. exact I10. }
    destruct (estimate N cvx crit tol m1 t) as [m' r']. exact EP.
Qed.

Lemma UC_predict_prob (q1 q2 : quantifier_object) (w : world X M) x given : estimator_test q1 = estimator_test q2 -> probabilistic q1 = true -> probabilistic q2 = true ->
  (exists p, UC_predict A q1 w x given = (Val tt, with_test q1 p) /\ UC_predict A q2 w x given = (Val tt, with_test q2 p)) \/
  (exists e, UC_predict A q1 w x given = (Err e, q1) /\ UC_predict A q2 w x given = (Err e, q2)) \/
  (UC_predict A q1 w x given = (NotANumber, q1) /\ UC_predict A q2 w x given = (NotANumber, q2)).
Proof.
  intros H1 H2 H3. unfold UC_predict. cbv zeta. rewrite H1, H2, H3.
  match goal with |- context [match ?o with Val p => (Val tt, with_test q1 p) | Err e => _ | NotANumber => _ end] => destruct o end; [left|right; left|right; right]; eauto.
Qed.

(** Two objects that agree in what predict uses. *)
Lemma predict_same s1 s2 cl1 cl2 : estimator_test (dy_base s1) = estimator_test (dy_base s2) -> probabilistic (dy_base s1) = true -> probabilistic (dy_base s2) = true ->
  classes_ (dy_base s1) = Some cl1 -> classes_ (dy_base s2) = Some cl2 -> length cl1 = length cl2 ->
  dy_cuts s1 = dy_cuts s2 -> dy_problem s1 = dy_problem s2 ->
  (dy_train s1 = dy_train s2 /\ dy_mixtures s1 = dy_mixtures s2 /\ (crit = Named L2 -> dy_l2 s1 = dy_l2 s2) \/
   needs_cvx crit = true /\ dy_problem s1 <> None /\ dy_train s1 <> None /\ dy_train s2 <> None) ->
  forall t p w, snd (predict t p s1 w) = snd (predict t p s2 w).
Proof.
  intros H1 H2 H3 H4 H5 H6 H7 H8 H9 t p w. unfold DFy_object_predict.
  destruct (UC_predict_prob (dy_base s1) (dy_base s2) w t p H1 H2 H3) as [(pp & E1 & E2)|[(e & E1 & E2)|(E1 & E2)]]; rewrite E1, E2; try reflexivity.
  cbn [with_test classes_ predictions_test_]. rewrite H4, H5, H6, H7. destruct (DFy_test_distribution _ _ _ _) as [td| |]; try reflexivity.
  destruct H9 as [(T1 & T2 & T3)|(T1 & T2 & T3 & T4)].
  - rewrite T1. destruct (dy_train s2) as [[d cols]|]; [|reflexivity]. cbv zeta. rewrite H8. match goal with |- context [if ?b then _ else _] => destruct b end; [reflexivity|].
    assert (ES : snd (estimate N cvx crit tol (dy_matcher d cols s1) td) = snd (estimate N cvx crit tol (dy_matcher d cols s2) td)).
    { apply estimate_same; try reflexivity; try assumption. intros EL. cbn [dy_matcher mt_l2]. now rewrite (T3 EL). }
    destruct (estimate N cvx crit tol (dy_matcher d cols s1) td), (estimate N cvx crit tol (dy_matcher d cols s2) td). exact ES.
  - destruct (dy_train s1) as [[d1 cols1]|]; [|congruence]. destruct (dy_train s2) as [[d2 cols2]|]; [|congruence]. cbv zeta.
    destruct (dy_problem s1) as [P|] eqn:EP1; [|congruence]. rewrite T1, <- H8. cbn [andb negb].
    assert (ES : snd (estimate N cvx crit tol (dy_matcher d1 cols1 s1) td) = snd (estimate N cvx crit tol (dy_matcher d2 cols2 s2) td)).
    { apply (estimate_cached N cvx crit tol _ _ td P T1); [exact EP1|cbn [dy_matcher mt_problem]; congruence]. }
    destruct (estimate N cvx crit tol (dy_matcher d1 cols1 s1) td), (estimate N cvx crit tol (dy_matcher d2 cols2 s2) td). exact ES.
Qed.

(** ** The base class raises *)
Theorem early y0 s x y given w : after y0 s -> raises (fst (fst (UC_fit A (dy_base s) w x y given))) ->
  exists r s' w', fit x y given s w = (r, s', w') /\ raises r /\
  (length (np_unique y) = length (np_unique y0) -> forall t p w2, snd (predict t p s' w2) = snd (predict t p s w2)) /\
  (n_descriptors (length (np_unique y)) <> n_descriptors (length (np_unique y0)) -> forall t p w2, raises (snd (predict t p s' w2))).
Proof.
  intros HA HR. destruct (after_settled _ _ HA) as (classes & cuts & cols & I1 & I2 & I3 & I4 & I5 & I6 & I7 & I8 & I9 & I10).
  destruct (calls_flags _ (after_calls _ _ HA)) as [HP _].
  destruct (UC_fit A (dy_base s) w x y given) as [[r0 q] w0] eqn:U. cbn [fst] in HR. destruct (UC_fit_keeps A _ _ _ _ _ _ _ _ U) as (K1 & K2 & K3 & K4 & K5).
  assert (F : fit x y given s w = (r0, with_base q s, w0)).
  { unfold DFy_object_fit. rewrite U. destruct r0 as [[]| |]; [|reflexivity..]. destruct (HR tt eq_refl). }
  exists r0, (with_base q s), w0. split; [exact F|]. split; [exact HR|]. split.
  - intros HN t p w2. apply (predict_same (with_base q s) s (np_unique y) classes); cbn [with_base dy_base dy_cuts dy_problem dy_train dy_mixtures dy_l2]; auto; congruence.
  - intros HN t p w2 v. unfold DFy_object_predict. cbn [with_base dy_base].
    destruct (UC_predict A q w2 t p) as [r q'] eqn:UP. destruct (UC_predict_keeps A _ _ _ _ _ _ UP) as (_ & _ & _ & _ & K6).
    destruct r as [[]| |]; try discriminate. rewrite K6, K5. destruct (predictions_test_ q') as [pp|]; [|discriminate]. cbn [with_base dy_cuts dy_train dy_problem].
    rewrite I3. destruct (DFy_test_distribution _ _ _ _) as [td| |] eqn:ET; try discriminate. rewrite I6. cbv zeta.
    pose proof (test_length _ _ _ _ _ _ I4 ET) as LT. set (nd := n_descriptors (length (np_unique y))) in *. set (nd0 := n_descriptors (length (np_unique y0))) in *.
    assert (LE : (nd <= nd0)%nat).
    { destruct (Nat.le_gt_cases nd nd0) as [|G]; [assumption|]. exfalso. unfold DFy_test_distribution in ET. destruct (collect _) as [hs| |] eqn:EC; try discriminate.
      apply collect_inv in EC.
      pose (f := fun d => obind (prediction_column pp d) (fun x => obind (item cuts d) (histogram x))).
      assert (Hi : In (f nd0) (map Val hs)) by (rewrite <- EC; apply (in_map f); apply in_seq; lia). unfold f in Hi.
      apply in_map_iff in Hi. destruct Hi as (z & Ez & _). cbn beta in Ez. destruct (prediction_column pp nd0); try discriminate. cbn [obind] in Ez.
      unfold item in Ez. rewrite (proj2 (nth_error_None cuts nd0)) in Ez by lia. discriminate. }
    assert (ND : length td <> (n_bins * nd0)%nat).
    { rewrite LT. intros E. apply HN. apply Nat.mul_cancel_l in E; [exact E|]. apply I9. intros Z0. apply HN. lia. }
    destruct (needs_cvx crit && match dy_problem s with None => false | Some _ => true end) eqn:EQ; cbn [negb andb].
    + apply andb_true_iff in EQ. destruct EQ as [EN EP]. destruct (dy_problem s) as [P|] eqn:EPP; [|discriminate EP]. unfold estimate. cbv zeta.
      cbn [dy_matcher mt_problem with_base dy_problem]. rewrite EPP.
      assert (RP : run_problem cvx P td = Err ValueError).
      { unfold run_problem, valid_parameter. rewrite I10. destruct (Nat.eqb_spec (length td) (n_bins * nd0)); [contradiction|reflexivity]. }
      destruct crit as [[]|f]; try discriminate EN; cbn [solve_hd solve_l1]; rewrite RP; discriminate.
    + destruct (Nat.eqb_spec (length td) (n_bins * nd0)); [contradiction|]. cbn. discriminate.
Qed.

(** ** A wrong number of predictions *)

Definition zeros (n : nat) : list (list R) := repeat (repeat 0 (n_bins * n_descriptors n)%nat) n.

Lemma short_fit x y P s w : strat = EqualWidth -> (0 < n_bins)%nat -> calls s -> estimator_train (dy_base s) = None -> estimator_test (dy_base s) = None ->
  y <> [] -> Spec_Fit4.columns (length (np_unique y)) P -> wrong_number y P ->
  exists q, fit x y (Some (Matrix P)) s w = (Err IndexError, {| dy_base := q; dy_cuts := Some (repeat (even_cuts n_bins) (n_descriptors (length (np_unique y))));
    dy_train := Some ((n_bins * n_descriptors (length (np_unique y)))%nat, zeros (length (np_unique y))); dy_l2 := dy_l2 s; dy_problem := dy_problem s;
    dy_mixtures := dy_mixtures s |}, w) /\ classes_ q = Some (np_unique y) /\ estimator_test q = None /\ probabilistic q = true.
Proof.
  intros EW HB C E1 E2 HY HC HW. destruct (calls_flags _ C) as [HP HN].
  unfold DFy_object_fit, UC_fit. cbv zeta. cbn [with_classes needs_predictions_train estimator_train estimator_test probabilistic]. rewrite E1, E2, HP, HN.
  cbn [andb ensure_fitted with_train predictions_train_ as_rows].
  assert (EC : DFy_cuts ppf n_bins strat y P = Val (repeat (even_cuts n_bins) (n_descriptors (length (np_unique y))))).
  { unfold DFy_cuts. rewrite EW. rewrite (collect_const _ (even_cuts n_bins)), seq_length; [reflexivity|]. intros a _. now apply equal_width_unit. }
  rewrite (proj2 (fill_cuts_val ppf n_bins strat y P _ HC) EC).
  assert (ET : forall cuts, DFX_fill_train (repeat 0 (n_bins * n_descriptors (length (np_unique y)))%nat)
    (DFy_fill_column n_bins (n_descriptors (length (np_unique y))) cuts (y_ext y (length P)) P) (np_unique y) = (zeros (length (np_unique y)), Err IndexError)).
  { intros cuts. unfold zeros. assert (NE : np_unique y <> []).
    { destruct y as [|z y]; [congruence|]. assert (Hi : In z (np_unique (z :: y))) by (apply np_unique_in; now left). intros E. rewrite E in Hi. destruct Hi. }
    destruct (np_unique y) as [|c cs]; [congruence|]. cbn [DFX_fill_train]. unfold DFy_fill_column at 1.
    destruct (Nat.eqb_spec (length (y_ext y (length P))) (length P)); [contradiction|]. reflexivity. }
  rewrite ET. eexists. split; [reflexivity|]. cbn [with_train classes_ estimator_test probabilistic]. auto.
Qed.

(** A cached problem survives such a fit, and with it the answers. *)
Theorem short_cached y0 s1 t1 p1 w1 s2 r1 x y P w : needs_cvx crit = true -> strat = EqualWidth -> (0 < n_bins)%nat -> after y0 s1 ->
  estimator_train (dy_base s1) = None -> estimator_test (dy_base s1) = None ->
  predict t1 p1 s1 w1 = (s2, Val r1) ->
  y <> [] -> length (np_unique y) = length (np_unique y0) -> Spec_Fit4.columns (length (np_unique y)) P -> wrong_number y P ->
  exists s3, fit x y (Some (Matrix P)) s2 w = (Err IndexError, s3, w) /\ forall t p w2, snd (predict t p s3 w2) = snd (predict t p s2 w2).
Proof.
  intros HC EW HB HA E1 E2 EP HY HN HM HW.
  assert (HA2 : after y0 s2) by (change s2 with (fst (s2, Val r1)); rewrite <- EP; now apply DFy_after_predict).
  destruct (predict_base s1 t1 p1 w1) as (EB & _). rewrite EP in EB. cbn [fst] in EB.
  assert (KE : estimator_train (dy_base s2) = None /\ estimator_test (dy_base s2) = None).
  { rewrite EB. destruct (UC_predict A (dy_base s1) w1 t1 p1) as [r q] eqn:U. destruct (UC_predict_keeps A _ _ _ _ _ _ U) as (K1 & K2 & _).
    cbn [snd]. split; congruence. }
  destruct KE as [E3 E4]. destruct (after_settled _ _ HA2) as (classes & cuts & cols & I1 & I2 & I3 & I4 & I5 & I6 & I7 & I8 & I9 & I10).
  destruct (calls_flags _ (after_calls _ _ HA2)) as [HP _].
  destruct (short_fit x y P s2 w EW HB (after_calls _ _ HA2) E3 E4 HY HM HW) as (q & F & Q1 & Q2 & Q3).
  eexists. split; [exact F|]. intros t p w2. apply (predict_same _ s2 (np_unique y) classes); cbn [dy_base dy_cuts dy_problem dy_train]; auto; try congruence.
  - rewrite I3, (I8 EW), HN. reflexivity.
  - right. split; [exact HC|]. split; [|split; [discriminate|congruence]].
    unfold DFy_object_predict in EP. destruct (UC_predict A (dy_base s1) w1 t1 p1) as [r q1]. destruct r as [[]| |]; try discriminate.
    destruct (classes_ q1) as [cl|]; [|discriminate]. destruct (predictions_test_ q1) as [pp|]; [|discriminate].
    destruct (DFy_test_distribution _ _ _ _) as [td| |]; try discriminate. destruct (dy_train s1) as [[d co]|]; [|discriminate]. cbv zeta in EP.
    match type of EP with (if ?b then _ else _) = _ => destruct b end; [discriminate|].
    destruct (estimate N cvx crit tol (dy_matcher d co s1) td) as [m r] eqn:ES. injection EP as <- Er. subst r. cbn [dy_problem].
    exact (estimate_caches _ _ _ _ _ _ _ _ HC ES).
Qed.

(** Otherwise the object forgets what it was fitted with. *)
Theorem short_forgets x0 y0 given0 s0 w0 s w1 x y P w : crit <> Named L2 -> strat = EqualWidth -> (0 < n_bins)%nat -> calls s0 ->
  estimator_train (dy_base s0) = None -> estimator_test (dy_base s0) = None ->
  fit x0 y0 given0 s0 w0 = (Val tt, s, w1) ->
  y <> [] -> Spec_Fit4.columns (length (np_unique y)) P -> wrong_number y P ->
  exists s' s'', fit x y (Some (Matrix P)) s w = (Err IndexError, s', w) /\ fit x y (Some (Matrix P)) (DFy_new None None) w = (Err IndexError, s'', w) /\
  forall t p w2, snd (predict t p s' w2) = snd (predict t p s'' w2).
Proof.
  intros HC EW HB CS E1 E2 F0 HY HM HW.
  assert (CS1 : calls s) by (eapply DFy_calls_fit; eassumption).
  destruct (fit_base _ _ _ _ _ _ _ _ F0) as [r0 U]. destruct (UC_fit_keeps A _ _ _ _ _ _ _ _ U) as (K1 & K2 & _).
  assert (PN : dy_problem s = None /\ dy_mixtures s = None).
  { unfold DFy_object_fit in F0. destruct (UC_fit A (dy_base s0) w0 x0 y0 given0) as [[r q] wq]. destruct r as [[]| |]; [|discriminate..]. cbv zeta in F0.
    destruct (predictions_train_ q); [|discriminate]. destruct (DFy_fill_cuts _ _ _ _ _) as [cuts [[]| |]]; [|discriminate..].
    destruct (DFX_fill_train _ _ _) as [cols [[]| |]]; [|discriminate..]. injection F0 as <- <-. split; reflexivity. }
  destruct PN as [PN1 PN2].
  destruct (short_fit x y P s w EW HB CS1 ltac:(congruence) ltac:(congruence) HY HM HW) as (q & F & Q1 & Q2 & Q3).
  destruct (short_fit x y P (DFy_new None None) w EW HB (DFy_calls_new _ _ _ _ _ _ _ _ _ _ None None) eq_refl eq_refl HY HM HW) as (q' & F' & Q1' & Q2' & Q3').
  eexists. eexists. split; [exact F|]. split; [exact F'|]. intros t p w2.
  apply (predict_same _ _ (np_unique y) (np_unique y)); cbn [dy_base dy_cuts dy_problem dy_train dy_mixtures dy_l2 DFy_new]; auto; try congruence.
  left. split; [reflexivity|]. split; [exact PN2|]. intros E. contradiction.
Qed.

(** ** An answer without any fit that returned *)

Lemma zero_mix n d k p : mix d k (matrix_of_columns (zeros n)) p = repeat 0 d.
Proof.
  assert (Z : forall r c, matrix_of_columns (zeros n) r c = 0).
  { intros r c. unfold matrix_of_columns, zeros. destruct (Nat.lt_ge_cases c n) as [H|H].
    - rewrite (nth_indep _ [] (repeat 0 (n_bins * n_descriptors n)%nat)) by (rewrite repeat_length; exact H). rewrite nth_repeat. apply nth_repeat.
    - rewrite (nth_overflow (repeat _ n)) by (rewrite repeat_length; exact H). destruct r; reflexivity. }
  unfold mix, tabulate. assert (S0 : forall r, sumn k (fun j => matrix_of_columns (zeros n) r j * nth j p 0) = 0).
  { intros r. induction k as [|k IH]; [reflexivity|]. cbn [sumn]. rewrite ?IH, Z. lra. }
  rewrite (map_ext _ (fun _ => 0)) by exact S0. clear. generalize 0%nat. induction d as [|d IH]; intros i; [reflexivity|]. cbn. now rewrite IH.
Qed.

Lemma even_test n rows : (0 < n_bins)%nat -> rows <> [] -> Spec_Fit4.columns n rows ->
  exists td, DFy_test_distribution kind (n_descriptors n) (Some (repeat (even_cuts n_bins) (n_descriptors n))) (Matrix rows) = Val td /\ Forall (fun v => 0 <= v) td.
Proof.
  intros HB HR HM2. destruct (even_shape n_bins HB) as [LE AE].
  unfold DFy_test_distribution. destruct (collect_all (fun d => obind (prediction_column (Matrix rows) d) (fun x => obind (item (repeat (even_cuts n_bins) (n_descriptors n)) d) (histogram x)))
      (seq 0 (n_descriptors n))) as [hs EH].
    { intros d Hd. apply in_seq in Hd. pose proof (descriptors_le n). rewrite (prediction_columns n rows d HM2) by lia. cbn [obind]. unfold item.
      destruct (nth_error (repeat (even_cuts n_bins) (n_descriptors n)) d) as [e|] eqn:E.
      - apply nth_error_In, repeat_spec in E. subst e. cbn [obind]. rewrite histogram_counts by exact AE. eauto.
      - apply nth_error_None in E. rewrite repeat_length in E. lia. }
    rewrite EH. cbn [obind as_rows]. destruct rows as [|r0 rs]; [congruence|]. cbn [length].
    assert (FB : Forall (fun v => 0 <= v) (concat (map (fun h => vdiv (map INR h) (INR (S (length rs)))) hs))).
    { apply Forall_forall. intros v Hv. apply in_concat in Hv. destruct Hv as (b & Hb & Hv). apply in_map_iff in Hb. destruct Hb as (h & <- & _).
      unfold vdiv in Hv. apply in_map_iff in Hv. destruct Hv as (z & <- & Hz). apply in_map_iff in Hz. destruct Hz as (k & <- & _).
      apply Rmult_le_pos; [apply pos_INR|]. left. apply Rinv_0_lt_compat. apply lt_0_INR. lia. }
    eexists. split; [reflexivity|]. destruct kind; [exact FB|]. unfold cumsum.
    assert (G : forall l a, 0 <= a -> Forall (fun v => 0 <= v) l -> Forall (fun v => 0 <= v) (cumsum_from a l)).
    { induction l as [|b l IH]; intros a Ha Hl; [constructor|]. inversion Hl; subst. cbn. constructor; [lra|]. apply IH; [lra|assumption]. }
    apply G; [lra|exact FB].
Qed.

Theorem never_fitted x y P w rows t w2 : answering_cvx cvx -> needs_cvx crit = true -> strat = EqualWidth -> (0 < n_bins)%nat ->
  y <> [] -> Spec_Fit4.columns (length (np_unique y)) P -> wrong_number y P -> rows <> [] -> Spec_Fit4.columns (length (np_unique y)) rows ->
  exists s p, fit x y (Some (Matrix P)) (DFy_new None None) w = (Err IndexError, s, w) /\ snd (predict t (Some (Matrix rows)) s w2) = Val p.
Proof.
  intros HX HC EW HB HY HM HW HR HM2.
  destruct (short_fit x y P (DFy_new None None) w EW HB (DFy_calls_new _ _ _ _ _ _ _ _ _ _ None None) eq_refl eq_refl HY HM HW) as (q & F & Q1 & Q2 & Q3).
  set (n := length (np_unique y)) in *. destruct (even_shape n_bins HB) as [LE AE].
  assert (NE : (0 < n)%nat).
  { unfold n. destruct y as [|z y]; [congruence|]. assert (Hi : In z (np_unique (z :: y))) by (apply np_unique_in; now left). destruct (np_unique (z :: y)); [destruct Hi|cbn; lia]. }
  pose proof (even_test n rows HB HR HM2) as ET.
  destruct ET as (td & ET & FT).
  assert (LT : length td = (n_bins * n_descriptors n)%nat).
  { eapply test_length; [|exact ET]. apply Forall_forall. intros c Hc. apply repeat_spec in Hc. subst c. exact LE. }
  assert (RA : forall obj, (forall p p', obj td p = obj td p') ->
    exists P' z, run_problem cvx {| cp_n := n; cp_d := (n_bins * n_descriptors n)%nat; cp_objective := obj; cp_last := None |} td = Val (P', z)).
  { intros obj HO. destruct n as [|k]; [lia|]. apply (run_problem_answers _ _ _ (1 :: repeat 0 k) HX); [exact LT|exact FT|]. cbn [cp_n cp_objective]. split.
    - split; [cbn; now rewrite repeat_length|]. split.
      + constructor; [lra|]. apply Forall_forall. intros v Hv. apply repeat_spec in Hv. lra.
      + cbn [rsum]. assert (Z : rsum (repeat 0 k) = 0) by (clear; induction k; cbn; lra). unfold rsum in *. cbn. lra.
    - intros z _. rewrite (HO _ z). lra. }
  eexists.
  assert (AN : exists p, snd (predict t (Some (Matrix rows)) {| dy_base := q; dy_cuts := Some (repeat (even_cuts n_bins) (n_descriptors n));
    dy_train := Some ((n_bins * n_descriptors n)%nat, zeros n); dy_l2 := None; dy_problem := None; dy_mixtures := None |} w2) = Val p).
  { unfold DFy_object_predict, UC_predict. cbv zeta. cbn [dy_base]. rewrite Q3. cbn [with_test classes_ predictions_test_]. rewrite Q1. fold n. cbn [dy_cuts]. rewrite ET.
    cbn [dy_train dy_problem]. assert (LZ : length (zeros n) = n) by apply repeat_length. rewrite andb_false_r, LT, LZ, !Nat.eqb_refl. cbn [negb orb andb]. rewrite andb_false_r.
    unfold estimate. cbv zeta. cbn [dy_matcher mt_problem mt_classes mt_bins mt_T dy_problem]. rewrite LZ.
    destruct crit as [[]|f]; try discriminate HC; cbn [solve_hd solve_l1]; rewrite LT, Nat.eqb_refl.
    - destruct (RA (hd_objective (n_bins * n_descriptors n) n (matrix_of_columns (zeros n)))) as (P' & z & E).
      { intros p p'. unfold hd_objective. now rewrite !zero_mix. }
      rewrite E. cbn. eauto.
    - destruct (RA (l1_objective (n_bins * n_descriptors n) n (matrix_of_columns (zeros n)))) as (P' & z & E).
      { intros p p'. unfold l1_objective. now rewrite !zero_mix. }
      rewrite E. cbn. eauto. }
  destruct AN as [p AN]. exists p. split; [exact F|exact AN].
Qed.
(** With L2, what such a fit leaves in train_distrib_ makes the answer the same for every bag. *)
Lemma zero_column n r c : matrix_of_columns (zeros n) r c = 0.
Proof.
  unfold matrix_of_columns, zeros. destruct (Nat.lt_ge_cases c n) as [H|H].
  - rewrite (nth_indep _ [] (repeat 0 (n_bins * n_descriptors n)%nat)) by (rewrite repeat_length; exact H). rewrite nth_repeat. apply nth_repeat.
  - rewrite (nth_overflow (repeat _ n)) by (rewrite repeat_length; exact H). destruct r; reflexivity.
Qed.

Theorem short_l2 x y P s w : crit = Named L2 -> strat = EqualWidth -> (0 < n_bins)%nat -> calls s ->
  estimator_train (dy_base s) = None -> estimator_test (dy_base s) = None ->
  y <> [] -> Spec_Fit4.columns (length (np_unique y)) P -> wrong_number y P ->
  exists s' r, fit x y (Some (Matrix P)) s w = (Err IndexError, s', w) /\
  forall t rows w2, rows <> [] -> Spec_Fit4.columns (length (np_unique y)) rows -> snd (predict t (Some (Matrix rows)) s' w2) = r.
Proof.
  intros HL EW HB C E1 E2 HY HM HW. destruct (short_fit x y P s w EW HB C E1 E2 HY HM HW) as (q & F & Q1 & Q2 & Q3).
  set (n := length (np_unique y)) in *.
  set (s' := {| dy_base := q; dy_cuts := Some (repeat (even_cuts n_bins) (n_descriptors n)); dy_train := Some ((n_bins * n_descriptors n)%nat, zeros n); dy_l2 := dy_l2 s;
    dy_problem := dy_problem s; dy_mixtures := dy_mixtures s |}) in *.
  exists s', (match mt_l2 (dy_matcher (n_bins * n_descriptors n) (zeros n) s') with
              | Some (G, C, b) => match solve_qp N n (S n) G (fun _ => 0) C b 1 with Some x => Val x | None => Err ValueError end
              | None => Err ValueError end).
  split; [exact F|]. intros t rows w2 HR HM2. destruct (even_test n rows HB HR HM2) as (td & ET & _).
  assert (LT : length td = (n_bins * n_descriptors n)%nat).
  { eapply test_length; [|exact ET]. apply Forall_forall. intros c Hc. apply repeat_spec in Hc. subst c. apply (even_shape n_bins HB). }
  unfold DFy_object_predict, UC_predict. cbv zeta. cbn [dy_base s']. rewrite Q3. cbn [with_test classes_ predictions_test_]. rewrite Q1. fold n. cbn [dy_cuts s']. rewrite ET.
  cbn [dy_train s']. assert (LZ : length (zeros n) = n) by apply repeat_length. rewrite LT, LZ, !Nat.eqb_refl, HL. cbn [negb orb andb needs_cvx].
  unfold estimate. cbv zeta. change (mt_bins (dy_matcher (n_bins * n_descriptors n) (zeros n) s')) with (n_bins * n_descriptors n)%nat.
  change (mt_classes (dy_matcher (n_bins * n_descriptors n) (zeros n) s')) with (length (zeros n)). rewrite LZ. cbn [snd].
  fold s'. destruct (mt_l2 _) as [[[G Cm] b]|]; [|reflexivity]. unfold solve_l2. cbv zeta. rewrite LT, Nat.eqb_refl.
  assert (EA : (fun i => 2 * sumn (n_bins * n_descriptors n) (fun r => mt_T (dy_matcher (n_bins * n_descriptors n) (zeros n) s') r i * nth r td 0)) = (fun _ => 0)).
  { apply FunctionalExtensionality.functional_extensionality. intros i. cbn [dy_matcher mt_T]. generalize (n_bins * n_descriptors n)%nat as k. intros k.
    assert (S0 : sumn k (fun r => matrix_of_columns (zeros n) r i * nth r td 0) = 0).
    { induction k as [|k IH]; [reflexivity|]. cbn [sumn]. rewrite ?IH, zero_column. lra. }
    rewrite S0. lra. }
  rewrite EA. reflexivity.
Qed.

End Object.
