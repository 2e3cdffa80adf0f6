(** * Proofs about DFX after failing fits (C129), continued: what fit and predict do. *)

From Coq Require Import Reals List ZArith Lia Lra Bool Arith.
From Verif Require Import Num Spec L_Num M_Baselines L_Baselines M_Bags L_Bags M_Search M_Optim Spec_Optim L_Optim2 L_Optim4 L_Optim5 M_Match
  Spec_Match L_Match L_Match2 L_Match3 L_Match6 M_Fit3 Spec_Fit Spec_Fit3 L_Fit7.
Import ListNotations.
Open Scope R_scope.

Lemma col_length : forall j (X : list (list R)), length (col j X) = length X.
Proof. intros. apply map_length. Qed.

Lemma combine_map : forall {A B} (g : nat * A -> B) (l : list A) d i,
  map g (combine (seq i (length l)) l) = map (fun j => g (j, nth (j - i) l d)) (seq i (length l)).
Proof.
  intros A B g l d. induction l as [|a l IH]; intros i; [reflexivity|]. cbn [length seq combine map]. f_equal.
  - rewrite Nat.sub_diag. reflexivity.
  - rewrite (IH (S i)). apply map_ext_in. intros j Hj. apply in_seq in Hj.
    replace (j - i)%nat with (S (j - S i)) by lia. reflexivity.
Qed.

Lemma column_val : forall kind n_bins cuts rows v, rows <> [] ->
  DFX_fill_column kind n_bins (length cuts) cuts rows = (v, Val tt) <-> dfx_represent kind cuts rows = Val v.
Proof.
  intros kind n_bins cuts rows v Hr. unfold DFX_fill_column, dfx_represent, df_blocks.
  destruct rows as [|r0 rows]; [congruence|]. set (X := r0 :: rows) in *.
  rewrite (combine_map (fun dc => histogram (col (fst dc) X) (snd dc)) cuts [] 0). cbn [fst snd].
  rewrite (map_ext_in _ (fun att => histogram (col att X) (nth att cuts []))) by (intros a _; now rewrite Nat.sub_0_r).
  set (f := fun att => histogram (col att X) (nth att cuts [])). set (l := seq 0 (length cuts)).
  destruct (fill_rows (repeat O n_bins) f l) as [counts r] eqn:EF.
  destruct (collect (map f l)) as [vs| |] eqn:EC; cbn [omap].
  - pose proof (proj2 (fill_val (repeat O n_bins) f l vs) EC) as K. rewrite EF in K. inversion K. subst.
    destruct kind; split; intros H; inversion H; reflexivity.
  - split; [|discriminate]. intros H. destruct r as [[]| |]; [|inversion H..]. apply fill_val in EF. congruence.
  - split; [|discriminate]. intros H. destruct r as [[]| |]; [|inversion H..]. apply fill_val in EF. congruence.
Qed.

Lemma refused : forall ppf N fuel kind n_bins strat crit k y X s, ~ accepted_data k y X ->
  DFX_object_fit ppf N fuel kind n_bins strat crit k y X s = (Err ValueError, s).
Proof.
  intros ppf N fuel kind n_bins strat crit k y X s H. unfold DFX_object_fit.
  destruct (Nat.eqb_spec (length y) (length X)) as [E1|]; [|reflexivity].
  destruct (Nat.eqb_spec (length X) 0) as [|E2]; [reflexivity|].
  destruct (Nat.eqb_spec k 0) as [|E3]; [reflexivity|]. destruct H. split; [exact E1|]. split; [|lia]. intros ->. apply E2. reflexivity.
Qed.

Lemma accepted_test : forall k y (X : list (list R)), accepted_data k y X ->
  negb (Nat.eqb (length y) (length X)) || Nat.eqb (length X) 0 || Nat.eqb k 0 = false.
Proof.
  intros k y X (E1 & E2 & E3). rewrite E1, Nat.eqb_refl. cbn [negb orb].
  destruct (Nat.eqb_spec (length X) 0) as [E|_]; [apply length_zero_iff_nil in E; congruence|].
  destruct (Nat.eqb_spec k 0); [lia|reflexivity].
Qed.

Lemma map_val_pair : forall {A} (f : Z -> A * out unit) (g : Z -> out A) classes, (forall c v, In c classes -> f c = (v, Val tt) <-> g c = Val v) ->
  forall vs, map f classes = map (fun v => (v, Val tt)) vs <-> collect (map g classes) = Val vs.
Proof.
  intros A f g classes. induction classes as [|c t IH]; intros H vs.
  - cbn. destruct vs; split; intros K; try reflexivity; discriminate.
  - cbn [map collect]. assert (IH' := IH (fun c v i => H c v (or_intror i))). destruct (g c) as [v| |] eqn:Eg.
    + pose proof (proj2 (H c v (or_introl eq_refl)) Eg) as Ef. rewrite Ef. cbn [obind]. destruct vs as [|w vs].
      * split; [discriminate|]. destruct (collect (map g t)); discriminate.
      * cbn [map]. split.
        -- intros K. inversion K as [[K1 K2]]. subst w. apply IH' in K2. rewrite K2. reflexivity.
        -- destruct (collect (map g t)) as [us| |] eqn:E; try discriminate. cbn [omap]. intros K. inversion K. subst. f_equal. now apply IH'.
    + split; [|discriminate]. destruct vs as [|w vs]; [discriminate|]. cbn [map]. intros K. inversion K as [[K1 K2]].
      apply (H c w (or_introl eq_refl)) in K1. congruence.
    + split; [|discriminate]. destruct vs as [|w vs]; [discriminate|]. cbn [map]. intros K. inversion K as [[K1 K2]].
      apply (H c w (or_introl eq_refl)) in K1. congruence.
Qed.

(** The state after a call of fit that returns. *)
Definition fitted N fuel n_bins crit k classes cuts cols (s : dfx_object) : dfx_object :=
  {| dx_classes := Some classes; dx_cuts := Some cuts; dx_train := Some cols;
     dx_l2 := match crit with
              | Named L2 => option_map (pair (length cols))
                  (compute_l2_param_train N fuel (n_bins * k) (length cols) (matrix_of_columns cols))
              | _ => dx_l2 s
              end;
     dx_problem := None; dx_mixtures := None |}.

Lemma object_fit_returns : forall ppf N fuel kind n_bins strat crit k y X s s', accepted_data k y X ->
  DFX_object_fit ppf N fuel kind n_bins strat crit k y X s = (Val tt, s') <->
  exists cuts cols, DFX_cuts ppf n_bins strat y k X = Val cuts /\ length cuts = k /\
    collect (map (fun c => dfx_represent kind cuts (select c y X)) (np_unique y)) = Val cols /\
    s' = fitted N fuel n_bins crit k (np_unique y) cuts cols s.
Proof.
  intros ppf N fuel kind n_bins strat crit k y X s s' HA. unfold DFX_object_fit. rewrite (accepted_test _ _ _ HA). cbv zeta.
  assert (LC : forall cuts, DFX_cuts ppf n_bins strat y k X = Val cuts -> length cuts = k).
  { intros cuts H. apply collect_inv in H. apply (f_equal (@length _)) in H. rewrite !map_length, seq_length in H. congruence. }
  assert (M : forall cuts, length cuts = k -> forall cols, DFX_fill_train (repeat 0 (n_bins * k))
      (fun c => DFX_fill_column kind n_bins k cuts (select c y X)) (np_unique y) = (cols, Val tt) <->
      collect (map (fun c => dfx_represent kind cuts (select c y X)) (np_unique y)) = Val cols).
  { intros cuts Lc cols. rewrite fill_train_val. apply map_val_pair. intros c v Hc. rewrite <- Lc. apply column_val.
    apply select_nonempty; [apply HA|]. now apply np_unique_in. }
  unfold DFX_fill_cuts. split.
  - destruct (fill_rows _ _ (seq 0 k)) as [cuts [[]| |]] eqn:EF; [|discriminate..]. apply fill_val in EF.
    fold (DFX_cuts ppf n_bins strat y k X) in EF. pose proof (LC _ EF) as Lc.
    destruct (DFX_fill_train _ _ _) as [cols [[]| |]] eqn:ET; [|discriminate..]. apply (M cuts Lc) in ET.
    intros H. inversion H. exists cuts, cols. auto.
  - intros (cuts & cols & EC & Lc & ET & ->). pose proof EC as EC'. unfold DFX_cuts in EC'. apply (proj2 (fill_val (repeat (Fin 0) (S n_bins)) _ _ _)) in EC'.
    rewrite EC'. apply (M cuts Lc) in ET. rewrite ET. reflexivity.
Qed.

(** ** Fit that returns: as the model of C51 to C53 *)

Lemma fitted_predict : forall N cvx fuel kind n_bins crit tol k classes cuts cols s bag, length cols = length classes -> length cuts = k -> bag <> [] ->
  snd (DFX_object_predict N cvx kind n_bins crit tol k bag (fitted N fuel n_bins crit k classes cuts cols s)) =
  snd (matching_predict N cvx crit tol (new_matcher N fuel crit (n_bins * length cuts) (dfx_represent kind cuts) cols) bag).
Proof.
  intros N cvx fuel kind n_bins crit tol k classes cuts cols s bag Lk Lc Hb. unfold DFX_object_predict. destruct bag as [|b0 bag]; [congruence|].
  cbn [fitted dx_classes dx_cuts dx_train dx_problem]. rewrite Lk, Nat.eqb_refl. cbn [negb]. rewrite andb_false_r. cbn [andb].
  unfold matching_predict. cbn [dx_matcher new_matcher mt_represent]. rewrite Lc.
  destruct (dfx_represent kind cuts (b0 :: bag)) as [t| |]; try reflexivity.
  unfold estimate. cbv zeta. cbn [dx_matcher new_matcher mt_problem mt_classes mt_bins mt_T mt_l2 mt_mixtures fitted dx_problem dx_mixtures dx_l2].
  destruct crit as [[]|f]; try reflexivity.
  - destruct (solve_hd _ _ _ _ _ _) as [[]| |]; reflexivity.
  - cbn. destruct (compute_l2_param_train N fuel (n_bins * k) (length cols) (matrix_of_columns cols)) as [[[G C] b]|]; cbn [option_map].
    + rewrite Nat.eqb_refl. reflexivity.
    + reflexivity.
  - destruct (solve_l1 _ _ _ _ _ _) as [[]| |]; reflexivity.
  - destruct (Nat.ltb _ _); [reflexivity|].
    assert (TC : forall c, train_column (dx_matcher kind n_bins k cuts cols (fitted N fuel n_bins (Callable f) k classes cuts cols s)) c =
      train_column (new_matcher N fuel (Callable f) (n_bins * k) (dfx_represent kind cuts) cols) c) by reflexivity.
    rewrite !TC. destruct (global_search _ _ _ _ _ _) as [[]| |]; reflexivity.
Qed.

Theorem object_as_fit : forall ppf N cvx fuel kind n_bins strat crit tol k y X s, accepted_data k y X ->
  match DFX_fit ppf N fuel kind n_bins strat crit y k X with
  | Val m => exists s', DFX_object_fit ppf N fuel kind n_bins strat crit k y X s = (Val tt, s') /\
      forall bag, bag <> [] -> snd (DFX_object_predict N cvx kind n_bins crit tol k bag s') = snd (matching_predict N cvx crit tol m bag)
  | _ => raises (fst (DFX_object_fit ppf N fuel kind n_bins strat crit k y X s))
  end.
Proof.
  intros ppf N cvx fuel kind n_bins strat crit tol k y X s HA.
  assert (ED : DFX_fit ppf N fuel kind n_bins strat crit y k X = obind (DFX_cuts ppf n_bins strat y k X) (fun cuts =>
    omap (new_matcher N fuel crit (n_bins * length cuts) (dfx_represent kind cuts))
      (collect (map (fun c => dfx_represent kind cuts (select c y X)) (np_unique y))))).
  { unfold DFX_fit. destruct (DFX_cuts _ _ _ _ _ _); [|reflexivity..]. cbn [obind]. unfold fit_matching.
    rewrite (proj1 HA), Nat.eqb_refl. reflexivity. }
  assert (NR : (forall cuts cols, DFX_cuts ppf n_bins strat y k X = Val cuts ->
      collect (map (fun c => dfx_represent kind cuts (select c y X)) (np_unique y)) = Val cols -> False) ->
    raises (fst (DFX_object_fit ppf N fuel kind n_bins strat crit k y X s))).
  { intros H []. intros E. destruct (DFX_object_fit ppf N fuel kind n_bins strat crit k y X s) as [r s'] eqn:EO. cbn [fst] in E. subst r.
    apply object_fit_returns in EO; [|exact HA]. destruct EO as (cuts & cols & E1 & _ & E2 & _). eapply H; eassumption. }
  rewrite ED. destruct (DFX_cuts ppf n_bins strat y k X) as [cuts| |] eqn:EC; cbn [obind].
  2,3: apply NR; intros; discriminate.
  destruct (collect (map _ (np_unique y))) as [cols| |] eqn:EL; cbn [omap].
  - assert (Lc : length cuts = k).
    { apply collect_inv in EC. apply (f_equal (@length _)) in EC. rewrite !map_length, seq_length in EC. congruence. }
    eexists. split; [apply object_fit_returns; [exact HA|]; exists cuts, cols; auto|]. intros bag Hb. apply fitted_predict; [|exact Lc|exact Hb].
    apply collect_inv in EL. apply (f_equal (@length _)) in EL. rewrite !map_length in EL. congruence.
  - apply NR. intros cuts' cols E1 E2. inversion E1. subst cuts'. congruence.
  - apply NR. intros cuts' cols E1 E2. inversion E1. subst cuts'. congruence.
Qed.

(** ** Fit that raises *)

(** The state after a call of fit that raises while the cut points are computed. *)
Definition reset_cuts n_bins k classes (s : dfx_object) : dfx_object :=
  {| dx_classes := Some classes; dx_cuts := Some (repeat (repeat (Fin 0) (S n_bins)) k); dx_train := dx_train s; dx_l2 := dx_l2 s;
     dx_problem := dx_problem s; dx_mixtures := dx_mixtures s |}.

Lemma fit_fate : forall ppf N fuel kind n_bins strat crit k y X s, increasing_ppf ppf -> (strat = EqualCount -> n_bins mod 4 <> 2)%nat ->
  accepted_data k y X ->
  (exists s', DFX_object_fit ppf N fuel kind n_bins strat crit k y X s = (Val tt, s')) \/
  (exists e, DFX_object_fit ppf N fuel kind n_bins strat crit k y X s = (Err e, reset_cuts n_bins k (np_unique y) s)).
Proof.
  intros ppf N fuel kind n_bins strat crit k y X s HP HM HA. destruct HA as (E1 & E2 & E3).
  assert (Lx : (0 < length X)%nat) by (destruct X; [congruence|cbn; lia]).
  destruct (one_fate ppf y n_bins strat (length X) HP HM Lx E1) as [F|F].
  - left. destruct (collect_all (fun att => compute_bincuts ppf (col att X) y (np_unique y) n_bins strat None) (seq 0 k)) as [cuts EC].
    { intros a _. destruct (F (col a X) (col_length _ _)) as (c & E & _). eauto. }
    assert (HA : accepted_data k y X) by (split; auto).
    assert (AC : forall i, (i < k)%nat -> ascending_edges (nth i cuts [])).
    { intros i Hi. pose proof (proj2 (fill_val [] _ _ _) EC) as K. pose proof (fill_nth [] [] _ k cuts K i Hi) as Ei. cbn beta in Ei.
      destruct (F (col i X) (col_length _ _)) as (c & E & HAs). rewrite E in Ei. inversion Ei as [Ec]. rewrite <- Ec. exact HAs. }
    assert (Lc : length cuts = k).
    { apply collect_inv in EC. apply (f_equal (@length _)) in EC. rewrite !map_length, seq_length in EC. congruence. }
    destruct (collect_all (fun c => dfx_represent kind cuts (select c y X)) (np_unique y)) as [cols EL].
    { intros c Hc. assert (Hr : select c y X <> []) by (apply select_nonempty; [exact E1|now apply np_unique_in]).
      destruct (DFX_fill_column kind n_bins (length cuts) cuts (select c y X)) as [v r] eqn:EF. exists v. apply (column_val kind n_bins); [exact Hr|].
      rewrite EF. f_equal. unfold DFX_fill_column in EF.
      destruct (fill_all (repeat O n_bins) (fun att => histogram (col att (select c y X)) (nth att cuts [])) (seq 0 (length cuts))) as [h Eh].
      { intros a Ha. apply in_seq in Ha. rewrite histogram_counts by (apply AC; lia). eauto. }
      rewrite Eh in EF. inversion EF. reflexivity. }
    eexists. apply object_fit_returns; [exact HA|]. exists cuts, cols. auto.
  - right. unfold DFX_object_fit. rewrite (accepted_test k y X) by (split; auto). unfold DFX_fill_cuts.
    destruct (fill_err (repeat (Fin 0) (S n_bins)) (fun att => compute_bincuts ppf (col att X) y (np_unique y) n_bins strat None) (seq 0 k)) as [e Ee].
    { intros E. apply (f_equal (@length _)) in E. rewrite seq_length in E. cbn in E. lia. }
    { intros a. apply F. apply col_length. }
    exists e. rewrite Ee. rewrite seq_length. reflexivity.
Qed.

Lemma predict_train : forall N cvx kind n_bins crit tol k bag s,
  dx_train (fst (DFX_object_predict N cvx kind n_bins crit tol k bag s)) = dx_train s.
Proof.
  intros. unfold DFX_object_predict. destruct bag; [reflexivity|]. destruct (dx_classes s), (dx_cuts s); try reflexivity.
  destruct (dfx_represent _ _ _); try reflexivity. destruct (dx_train s) eqn:E; cbn [fst]; auto.
  destruct (_ && _); [exact E|]. destruct (matching_predict _ _ _ _ _ _). cbn. reflexivity.
Qed.

Theorem never_fitted : forall ppf N cvx fuel kind n_bins strat crit tol k s, increasing_ppf ppf -> (strat = EqualCount -> n_bins mod 4 <> 2)%nat ->
  DFX_only_failed ppf N cvx fuel kind n_bins strat crit tol k s ->
  forall bag, raises (snd (DFX_object_predict N cvx kind n_bins crit tol k bag s)).
Proof.
  intros ppf N cvx fuel kind n_bins strat crit tol k s HP HM H.
  assert (T : dx_train s = None).
  { induction H as [|s y X r s' H IH E R|s bag H IH]; [reflexivity| |].
    - destruct (Nat.eq_dec (length y) (length X)) as [E1|E1]; [destruct X as [|x0 X]; [|destruct (Nat.eq_dec k 0) as [E3|E3]]|].
      4: { rewrite refused in E by (intros (A1 & A2 & A3); congruence). inversion E. now subst. }
      1,2: rewrite refused in E by (intros (A1 & A2 & A3); congruence || lia); inversion E; now subst.
      destruct (fit_fate ppf N fuel kind n_bins strat crit k y (x0 :: X) s HP HM) as [[s2 F]|[e F]].
      + split; [exact E1|]. split; [discriminate|lia].
      + rewrite F in E. inversion E. subst. destruct (R tt eq_refl).
      + rewrite F in E. inversion E. exact IH.
    - rewrite predict_train. exact IH. }
  intros bag p E. unfold DFX_object_predict in E. destruct bag; [discriminate|]. destruct (dx_classes s), (dx_cuts s); try discriminate.
  destruct (dfx_represent _ _ _); try discriminate. rewrite T in E. discriminate.
Qed.

(** ** Bags after a fit that raised *)

Lemma zero_edges_ascending : forall n, ascending_edges (repeat (Fin 0) n).
Proof.
  intros n i Hi. rewrite repeat_length in Hi. rewrite !(nth_indep _ PosInf (Fin 0)) by (rewrite repeat_length; lia).
  rewrite !nth_repeat. cbn. lra.
Qed.

Lemma zero_histogram : forall n x, ~ In 0 x -> histogram x (repeat (Fin 0) (S n)) = Val (repeat O n).
Proof.
  intros n x H. unfold histogram. rewrite (proj2 (non_decreasing_spec _) (zero_edges_ascending (S n))). f_equal.
  assert (C : forall i, (i <= n)%nat -> cum_n x (repeat (Fin 0) (S n)) i = length (filter (fun v => if Rlt_dec v 0 then true else false) x)).
  { intros i Hi. unfold cum_n. rewrite !(nth_indep _ PosInf (Fin 0)) by (rewrite repeat_length; lia). rewrite nth_repeat. cbn [below at_most].
    destruct (Nat.eqb _ _); [|reflexivity]. f_equal. apply filter_ext_in. intros v Hv. cbn.
    assert (v <> 0) by congruence. destruct (Rle_dec v 0), (Rlt_dec v 0); try reflexivity; lra. }
  rewrite repeat_length. replace (S n - 1)%nat with n by lia.
  rewrite (tabulate_ext _ _ (fun _ => O)) by (intros i Hi; rewrite !C by lia; lia).
  unfold tabulate. clear. generalize 0%nat at 2. induction n as [|n IH]; intros m; [reflexivity|]. cbn. f_equal. apply IH.
Qed.

Definition empty_representation (kind : representation) (n_bins k : nat) : list R :=
  let blocks := repeat (repeat 0 n_bins) k in match kind with PDF => concat blocks | CDF => concat (map cumsum blocks) end.

Lemma zero_represent : forall kind n_bins k bag, without_zeros k bag ->
  dfx_represent kind (repeat (repeat (Fin 0) (S n_bins)) k) bag = Val (empty_representation kind n_bins k).
Proof.
  intros kind n_bins k bag [Hb HZ]. unfold dfx_represent, df_blocks. destruct bag as [|b0 bag]; [congruence|]. set (X := b0 :: bag) in *.
  rewrite (combine_map (fun dc => histogram (col (fst dc) X) (snd dc)) _ [] 0). cbn [fst snd]. rewrite repeat_length.
  rewrite (collect_val _ (fun _ => repeat O n_bins)).
  2: { intros a Ha. apply in_seq in Ha. rewrite Nat.sub_0_r. rewrite (nth_indep _ [] (repeat (Fin 0) (S n_bins))) by (rewrite repeat_length; lia).
       rewrite nth_repeat. apply zero_histogram. intros H0. apply in_map_iff in H0. destruct H0 as (r & E & Hr).
       rewrite Forall_forall in HZ. destruct (HZ r Hr) as [L NZ]. apply NZ. rewrite <- E. apply nth_In. lia. }
  unfold empty_representation. cbv zeta.
  assert (EB : map (fun h => vdiv (map INR h) (INR (length X))) (map (fun _ : nat => repeat O n_bins) (seq 0 k)) = repeat (repeat 0 n_bins) k).
  { rewrite map_map. assert (V : vdiv (map INR (repeat O n_bins)) (INR (length X)) = repeat 0 n_bins).
    { unfold vdiv. rewrite map_map. induction n_bins as [|n IH]; [reflexivity|]. cbn [repeat map]. f_equal; [|exact IH].
      cbn [INR]. unfold Rdiv. apply Rmult_0_l. }
    rewrite V. clear. generalize 0%nat. induction k as [|k IH]; intros m; [reflexivity|]. cbn. f_equal. apply IH. }
  unfold omap, obind. rewrite EB. destruct kind; reflexivity.
Qed.

Theorem forgotten : forall ppf N cvx fuel kind n_bins strat crit tol k s y X r s', increasing_ppf ppf -> (strat = EqualCount -> n_bins mod 4 <> 2)%nat ->
  accepted_data k y X -> DFX_object_fit ppf N fuel kind n_bins strat crit k y X s = (r, s') -> raises r ->
  forall bag1 bag2, without_zeros k bag1 -> without_zeros k bag2 ->
  snd (DFX_object_predict N cvx kind n_bins crit tol k bag1 s') = snd (DFX_object_predict N cvx kind n_bins crit tol k bag2 s').
Proof.
  intros ppf N cvx fuel kind n_bins strat crit tol k s y X r s' HP HM HA E R bag1 bag2 H1 H2.
  destruct (fit_fate ppf N fuel kind n_bins strat crit k y X s HP HM HA) as [[s2 F]|[e F]]; rewrite F in E; inversion E; subst.
  { destruct (R tt eq_refl). }
  pose proof (zero_represent kind n_bins k bag1 H1) as Z1. pose proof (zero_represent kind n_bins k bag2 H2) as Z2.
  destruct H1 as [N1 _], H2 as [N2 _]. destruct bag1 as [|b1 bag1]; [congruence|]. destruct bag2 as [|b2 bag2]; [congruence|].
  unfold DFX_object_predict, reset_cuts. cbn [dx_classes dx_cuts dx_train dx_problem]. rewrite Z1, Z2.
  destruct (dx_train s) as [cols|]; [|reflexivity]. destruct (_ && _ && _); [reflexivity|].
  unfold matching_predict. cbn [dx_matcher mt_represent]. rewrite Z1, Z2. destruct (estimate _ _ _ _ _ _). reflexivity.
Qed.

(** After an answer with HD or L1 the labels of the fit that raises do not matter. *)
Theorem labels_ignored : forall ppf N cvx fuel kind n_bins strat crit tol k s bag1 s2 p y X r s3 y' X' r' s3', increasing_ppf ppf ->
  (strat = EqualCount -> n_bins mod 4 <> 2)%nat -> crit = Named HD \/ crit = Named L1 -> accepted_data k y X -> accepted_data k y' X' ->
  DFX_object_predict N cvx kind n_bins crit tol k bag1 s = (s2, Val p) ->
  DFX_object_fit ppf N fuel kind n_bins strat crit k y X s2 = (r, s3) -> raises r ->
  DFX_object_fit ppf N fuel kind n_bins strat crit k y' X' s2 = (r', s3') -> raises r' ->
  forall bag, snd (DFX_object_predict N cvx kind n_bins crit tol k bag s3) = snd (DFX_object_predict N cvx kind n_bins crit tol k bag s3').
Proof.
  intros ppf N cvx fuel kind n_bins strat crit tol k s bag1 s2 p y X r s3 y' X' r' s3' HP HM HC HA HA' EP E R E' R' bag.
  destruct (fit_fate ppf N fuel kind n_bins strat crit k y X s2 HP HM HA) as [[u F]|[e F]]; rewrite F in E; inversion E; subst; [destruct (R tt eq_refl)|].
  destruct (fit_fate ppf N fuel kind n_bins strat crit k y' X' s2 HP HM HA') as [[u' F']|[e' F']]; rewrite F' in E'; inversion E'; subst; [destruct (R' tt eq_refl)|].
  assert (EQ : dx_problem s2 <> None).
  { unfold DFX_object_predict in EP. destruct bag1; [discriminate|]. destruct (dx_classes s) as [cl|]; [|discriminate]. destruct (dx_cuts s) as [cuts|]; [|discriminate].
    destruct (dfx_represent kind cuts _) as [t| |] eqn:ER; try discriminate. destruct (dx_train s) as [cols|]; [|discriminate].
    destruct (_ && _ && _); [discriminate|]. unfold matching_predict in EP. cbn [dx_matcher mt_represent] in EP. rewrite ER in EP.
    destruct (estimate N cvx crit tol (dx_matcher kind n_bins k cuts cols s) t) as [m o] eqn:EE. inversion EP; subst. cbn [dx_problem].
    unfold estimate in EE. cbv zeta in EE. destruct HC as [->| ->].
    - destruct (solve_hd _ _ _ _ _ _) as [[P' z]| |]; inversion EE. discriminate.
    - destruct (solve_l1 _ _ _ _ _ _) as [[P' z]| |]; inversion EE. discriminate. }
  unfold DFX_object_predict, reset_cuts. cbn [dx_classes dx_cuts dx_train dx_problem dx_l2 dx_mixtures]. destruct bag as [|b bag]; [reflexivity|].
  destruct (dfx_represent _ _ _); try reflexivity. destruct (dx_train s2) as [cols|]; [|reflexivity]. destruct (dx_problem s2) as [P|] eqn:EPr; [|congruence].
  rewrite !andb_false_r.
  unfold dx_matcher. cbn [dx_l2 dx_problem dx_mixtures]. destruct (matching_predict _ _ _ _ _ _). reflexivity.
Qed.

(** With another number of classes and no earlier prediction, HD and L1 do not answer. *)
Theorem other_classes : forall ppf N cvx fuel kind n_bins strat crit tol k s0 y0 X0 s y X r s', increasing_ppf ppf -> (strat = EqualCount -> n_bins mod 4 <> 2)%nat ->
  crit = Named HD \/ crit = Named L1 -> accepted_data k y0 X0 -> accepted_data k y X ->
  DFX_object_fit ppf N fuel kind n_bins strat crit k y0 X0 s0 = (Val tt, s) ->
  DFX_object_fit ppf N fuel kind n_bins strat crit k y X s = (r, s') -> raises r -> length (np_unique y) <> length (np_unique y0) ->
  forall bag, raises (snd (DFX_object_predict N cvx kind n_bins crit tol k bag s')).
Proof.
  intros ppf N cvx fuel kind n_bins strat crit tol k s0 y0 X0 s y X r s' HP HM HC HA0 HA E0 E R NE bag.
  apply object_fit_returns in E0; [|exact HA0]. destruct E0 as (cuts & cols & _ & _ & EL & ->).
  assert (Lk : length cols = length (np_unique y0)).
  { apply collect_inv in EL. apply (f_equal (@length _)) in EL. rewrite !map_length in EL. congruence. }
  destruct (fit_fate ppf N fuel kind n_bins strat crit k y X (fitted N fuel n_bins crit k (np_unique y0) cuts cols s0) HP HM HA) as [[s2 F]|[e F]];
    rewrite F in E; inversion E; subst.
  { destruct (R tt eq_refl). }
  intros p. unfold DFX_object_predict. destruct bag as [|b0 bag]; [discriminate|]. unfold reset_cuts, fitted. cbn [dx_classes dx_cuts dx_train dx_problem].
  destruct (dfx_represent _ _ _); try discriminate. rewrite Lk. destruct (Nat.eqb_spec (length (np_unique y)) (length (np_unique y0))); [contradiction|].
  destruct HC as [->| ->]; cbn; discriminate.
Qed.

(** ** Cut points that decrease *)

Lemma fill_error : forall {A} (blank : A) f l vs e, fill_rows blank f l = (vs, Err e) -> exists a, In a l /\ f a = Err e.
Proof.
  intros A blank f l. induction l as [|a l IH]; intros vs e H; [discriminate|]. cbn [fill_rows] in H. destruct (f a) as [v| |] eqn:E.
  - destruct (fill_rows blank f l) as [ws r]. inversion H. subst. destruct (IH ws e eq_refl) as (b & Hb & Eb). exists b. split; [now right|exact Eb].
  - inversion H. subst. exists a. split; [now left|exact E].
  - discriminate.
Qed.

Lemma equal_count_error : forall ppf x y classes n range e, (0 < n)%nat -> compute_bincuts ppf x y classes n EqualCount range = Err e -> e = IndexError.
Proof.
  intros ppf x y classes n range e Hn H. unfold compute_bincuts in H. destruct n as [|n']; [lia|]. set (n := S n') in *.
  assert (K : forall l, collect (map (equal_count_cut (rsort x) n) l) = Err e -> e = IndexError).
  { intros l. induction l as [|i l IH]; [discriminate|]. cbn [map collect]. unfold equal_count_cut at 1. destruct (Nat.leb _ _); cbn [obind].
    - intros E. inversion E. reflexivity.
    - destruct (collect (map _ l)); try discriminate. intros E. inversion E. subst. auto. }
  destruct (collect (map _ _)) as [v|e'|] eqn:E; try discriminate. inversion H. subst. eapply K. exact E.
Qed.

Theorem decreasing_cuts : forall ppf N cvx fuel kind n_bins crit tol k s y X s', (0 < n_bins)%nat -> accepted_data k y X ->
  DFX_object_fit ppf N fuel kind n_bins EqualCount crit k y X s = (Err ValueError, s') ->
  forall bag, raises (snd (DFX_object_predict N cvx kind n_bins crit tol k bag s')).
Proof.
  intros ppf N cvx fuel kind n_bins crit tol k s y X s' Hn HA E bag. unfold DFX_object_fit in E. rewrite (accepted_test _ _ _ HA) in E. cbv zeta in E.
  unfold DFX_fill_cuts in E. destruct (fill_rows (repeat (Fin 0) (S n_bins)) _ (seq 0 k)) as [cuts [[]|e|]] eqn:EF.
  - assert (Lc : length cuts = k).
    { apply fill_val, collect_inv in EF. apply (f_equal (@length _)) in EF. rewrite !map_length, seq_length in EF. congruence. }
    destruct (DFX_fill_train _ _ _) as [cols r] eqn:ET.
    assert (ES : dx_classes s' = Some (np_unique y) /\ dx_cuts s' = Some cuts /\ forall u, r <> Val u).
    { destruct r as [[]| |]; inversion E; subst; cbn; (split; [reflexivity|split; [reflexivity|discriminate]]). }
    destruct ES as (C1 & C2 & NR). intros p H. unfold DFX_object_predict in H. destruct bag as [|b0 bag]; [discriminate|]. rewrite C1, C2 in H.
    destruct (dfx_represent kind cuts (b0 :: bag)) as [t| |] eqn:ER; try discriminate. clear H.
    apply (column_val kind n_bins) in ER; [|discriminate]. unfold DFX_fill_column in ER.
    destruct (fill_rows (repeat O n_bins) _ (seq 0 (length cuts))) as [h [[]| |]] eqn:EH; try discriminate.
    assert (AC : forall i, (i < length cuts)%nat -> ascending_edges (nth i cuts [])).
    { intros i Hi. pose proof (fill_nth _ [] _ _ _ EH i Hi) as Ei. cbn beta in Ei. apply histogram_ascending in Ei. exact Ei. }
    assert (TV : exists vs, map (fun c => DFX_fill_column kind n_bins k cuts (select c y X)) (np_unique y) = map (fun v => (v, Val tt)) vs).
    { exists (map (fun c => fst (DFX_fill_column kind n_bins k cuts (select c y X))) (np_unique y)). rewrite map_map. apply map_ext. intros c.
      unfold DFX_fill_column.
      destruct (fill_all (repeat O n_bins) (fun att => histogram (col att (select c y X)) (nth att cuts [])) (seq 0 k)) as [g Eg].
      { intros a Ha. apply in_seq in Ha. rewrite histogram_counts by (apply AC; lia). eauto. }
      rewrite Eg. reflexivity. }
    destruct TV as [vs TV]. apply (fill_train_val (repeat 0 (n_bins * k))) in TV. rewrite TV in ET. inversion ET. subst. apply (NR tt). reflexivity.
  - inversion E. subst e. apply fill_error in EF. destruct EF as (a & _ & Ea). apply equal_count_error in Ea; [discriminate|exact Hn].
  - discriminate.
Qed.
