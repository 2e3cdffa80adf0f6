(** * Counterexamples and examples for the quantifiers that match distributions. *)

From Coq Require Import Reals List ZArith Lia Lra Bool Arith Permutation.
From Verif Require Import Num Spec L_Num M_Baselines L_Baselines M_Metrics L_Metrics M_Bags L_Bags M_Search
  L_Search2 M_Optim Spec_Optim L_Optim L_Optim2 L_Optim3 L_Optim4 L_Optim5 M_Match Spec_Match L_Match L_Match2 L_Match3 L_Match4
  L_Match5 L_Match6 L_Match7 L_Match8 L_Match9.
Import ListNotations.
Open Scope R_scope.

Ltac dec_lra := repeat
  match goal with
  | |- context [Rlt_dec ?a ?b] => destruct (Rlt_dec a b); [try (exfalso; lra)|try (exfalso; lra)]
  | |- context [Rle_dec ?a ?b] => destruct (Rle_dec a b); [try (exfalso; lra)|try (exfalso; lra)]
  | |- context [Req_EM_T ?a ?b] => destruct (Req_EM_T a b); [try (exfalso; lra)|try (exfalso; lra)]
  end.

(** Equality of lists of numbers. *)
Ltac list_lra := repeat (apply (f_equal2 cons); [simpl; lra|]); reflexivity.

(** ** A decided training set: two classes, two bins *)

Lemma two_bins : uniform_edges 2 0 1 = [0; 1/2; 1].
Proof. unfold uniform_edges. dec_lra. unfold tabulate. cbn [seq map]. list_lra. Qed.

Lemma two_cuts : forall ppf x y classes,
  compute_bincuts ppf x y classes 2 EqualWidth (Some (0, 1)) = Val [NegInf; Fin (1/2); PosInf].
Proof. intros. unfold compute_bincuts. rewrite two_bins. destruct x; reflexivity. Qed.

Lemma two_cuts_range : forall ppf x y classes, x <> [] -> lmin x = 0 -> lmax x = 1 ->
  compute_bincuts ppf x y classes 2 EqualWidth None = Val [NegInf; Fin (1/2); PosInf].
Proof. intros ppf [|a x] y classes H E1 E2; [congruence|]. unfold compute_bincuts. rewrite E1, E2, two_bins. reflexivity. Qed.

Definition ex_preds : list (list R) := [[9/10; 1/10]; [1/5; 4/5]].
Definition ex_labels : list Z := [0; 1]%Z.

Lemma histogram_two : forall x, histogram x [NegInf; Fin (1/2); PosInf] =
  Val [length (filter (below (Fin (1/2))) x); (length x - length (filter (below (Fin (1/2))) x))%nat].
Proof.
  intros x. unfold histogram, tabulate. cbn [non_decreasing edge_le andb length Nat.sub seq map cum_n nth Nat.eqb].
  unfold cum_n. cbn [length nth Nat.eqb].
  assert (E1 : length (filter (below NegInf) x) = O) by (induction x; simpl; auto).
  assert (E2 : length (filter (at_most PosInf) x) = length x) by (induction x; simpl; auto).
  rewrite E1, E2, Nat.sub_0_r. reflexivity.
Qed.

Definition half_cut : list edge := [NegInf; Fin (1/2); PosInf].
Definition ex_columns (kind : representation) : list (list R) :=
  match kind with PDF => [[0; 1]; [1; 0]] | CDF => [[0; 1]; [1; 1]] end.

Lemma ex_fit : forall ppf N fuel kind crit,
  DFy_fit ppf N fuel kind 2 EqualWidth crit ex_labels ex_preds =
  Val (new_matcher N fuel crit 2 (dfy_represent kind [half_cut]) (ex_columns kind)).
Proof.
  intros ppf N fuel kind crit. unfold DFy_fit, DFy_cuts. change (np_unique ex_labels) with ex_labels.
  change (n_descriptors (length ex_labels)) with 1%nat. cbn [seq map collect].
  rewrite two_cuts. cbn [obind omap].
  unfold fit_matching. change (y_ext ex_labels (length ex_preds)) with ex_labels.
  change (Nat.eqb (length ex_labels) (length ex_preds)) with true. cbn iota.
  change (map (fun c => dfy_represent kind [[NegInf; Fin (1/2); PosInf]] (select c ex_labels ex_preds)) ex_labels)
    with [dfy_represent kind [[NegInf; Fin (1/2); PosInf]] [[9/10; 1/10]];
          dfy_represent kind [[NegInf; Fin (1/2); PosInf]] [[1/5; 4/5]]].
  assert (E : forall kind, dfy_represent kind [[NegInf; Fin (1/2); PosInf]] [[9/10; 1/10]] = Val [0; 1] /\
              dfy_represent kind [[NegInf; Fin (1/2); PosInf]] [[1/5; 4/5]] =
                Val match kind with PDF => [1; 0] | CDF => [1; 1] end).
  { intros k. unfold dfy_represent, df_blocks. cbn [combine seq map collect length fst snd col nth].
    rewrite !histogram_two. cbn [filter below length]. dec_lra. cbn. split; destruct k; cbn; (apply (f_equal Val); list_lra). }
  destruct (E kind) as [E1 E2]. rewrite E1, E2. cbn [collect obind omap].
  destruct kind; reflexivity.
Qed.

Lemma ex_identifiable : forall a b, a <> b ->
  identifiable 2 2 (matrix_of_columns [[a; 1]; [b; 0]]) /\
  identifiable 2 2 (matrix_of_columns [[a; 1]; [b; 1]]) /\
  identifiable 2 2 (matrix_of_columns [[1; a]; [1; b]]).
Proof.
  intros a b Hab.
  assert (K : forall u v, a * u + b * (1 - u) = a * v + b * (1 - v) -> u = v).
  { intros u v H. assert (Z : (a - b) * (u - v) = 0) by lra. apply Rmult_integral in Z. lra. }
  split; [|split]; intros p q Hp Hq H; destruct (dist2_of 2 p eq_refl Hp) as (u & Hu & ->);
    destruct (dist2_of 2 q eq_refl Hq) as (v & Hv & ->).
  - pose proof (H O ltac:(lia)) as H0. unfold mixture_at, matrix_of_columns in H0. cbn in H0.
    rewrite (K u v) by lra. reflexivity.
  - pose proof (H O ltac:(lia)) as H0. unfold mixture_at, matrix_of_columns in H0. cbn in H0.
    rewrite (K u v) by lra. reflexivity.
  - pose proof (H 1%nat ltac:(lia)) as H0. unfold mixture_at, matrix_of_columns in H0. cbn in H0.
    rewrite (K u v) by lra. reflexivity.
Qed.

(** ** The Hellinger objective when the class distributions have different masses *)

Lemma hd_only : forall {A} N cvx tol fuel (rep : list A -> out (list R)) cols t bag q,
  rep bag = Val t -> length t = 2%nat -> Forall (fun v => 0 <= v) t -> exact_cvx cvx ->
  best_distribution (length cols) (hd_objective 2 (length cols) (matrix_of_columns cols) t) q ->
  (forall p, best_distribution (length cols) (hd_objective 2 (length cols) (matrix_of_columns cols) t) p -> p = q) ->
  only_result N cvx (snd (matching_predict N cvx (Named HD) tol
     (new_matcher N fuel (Named HD) 2 rep cols) bag)) q.
Proof.
  intros A N cvx tol fuel rep cols t bag q HR HL HN HX HB HU.
  unfold matching_predict. cbn [mt_represent new_matcher]. rewrite HR.
  unfold estimate, solve_hd. cbn [mt_problem mt_bins mt_classes mt_T new_matcher].
  rewrite HL. cbn [Nat.eqb].
  split.
  - intros p Hp. destruct (run_problem _ _ _) as [[P x]| |] eqn:E; try discriminate.
    cbn [snd] in Hp. inversion Hp; subst x. apply run_problem_best in E; auto.
  - intros HA _. destruct (run_problem_answers cvx {| cp_n := length cols; cp_d := 2;
       cp_objective := hd_objective 2 (length cols) (matrix_of_columns cols); cp_last := None |} t q HA HL HN HB)
      as (P & x & E).
    rewrite E. cbn [snd]. f_equal. apply HU. apply run_problem_best in E; auto.
Qed.

Lemma hd_value : forall a b x,
  hd_objective 2 2 (matrix_of_columns [[0; 1]; [1; 1]]) [a; b] [x; 1 - x] = 1 - (sqrt (a * (1 - x)) + sqrt b) /\
  hd_objective 2 2 (matrix_of_columns [[1; 0]; [1; 1]]) [b; a] [x; 1 - x] = 1 - (sqrt (a * (1 - x)) + sqrt b).
Proof.
  intros a b x. unfold hd_objective, mix, mixture_at, matrix_of_columns, tabulate. cbn.
  split.
  - replace (a * (0 + 0 * x + 1 * (1 - x))) with (a * (1 - x)) by ring.
    replace (b * (0 + 1 * x + 1 * (1 - x))) with b by ring. ring.
  - replace (a * (0 + 0 * x + 1 * (1 - x))) with (a * (1 - x)) by ring.
    replace (b * (0 + 1 * x + 1 * (1 - x))) with b by ring. ring.
Qed.

Lemma zero_one : distribution_over 2 [0; 1].
Proof.
  split; [reflexivity|]. split; [|simpl; lra].
  apply Forall_cons; [lra|]. apply Forall_cons; [lra|]. apply Forall_nil.
Qed.

Lemma hd_skewed : forall a b (obj : list R -> R), 0 < a ->
  (forall x, obj [x; 1 - x] = 1 - (sqrt (a * (1 - x)) + sqrt b)) ->
  best_distribution 2 obj [0; 1] /\ forall p, best_distribution 2 obj p -> p = [0; 1].
Proof.
  intros a b obj Ha HO.
  assert (E0 : obj [0; 1] = 1 - (sqrt a + sqrt b)).
  { pose proof (HO 0) as H. rewrite Rminus_0_r, Rmult_1_r in H. exact H. }
  split.
  - split; [apply zero_one|]. intros q Hq. destruct (dist2_of 2 q eq_refl Hq) as (x & Hx & ->).
    rewrite E0, HO. assert (sqrt (a * (1 - x)) <= sqrt a) by (apply sqrt_le_1_alt; nra). lra.
  - intros p [Dp Op]. destruct (dist2_of 2 p eq_refl Dp) as (x & Hx & ->).
    specialize (Op _ zero_one). rewrite E0, HO in Op.
    destruct (Req_dec x 0) as [->|Nx]; [rewrite Rminus_0_r; reflexivity|].
    assert (sqrt (a * (1 - x)) < sqrt a) by (apply sqrt_lt_1_alt; nra). lra.
Qed.

(** A bag with the two training examples. *)
Definition ex_mix : list (list R) := ex_preds.
Lemma ex_samples' : class_samples (np_unique ex_labels) (y_ext ex_labels (length ex_preds)) ex_preds =
  [[[9/10; 1/10]]; [[1/5; 4/5]]].
Proof. reflexivity. Qed.
Lemma ex_copies : copies_of [1%nat; 1%nat] [[[9/10; 1/10]]; [[1/5; 4/5]]] ex_preds /\
  copies_prevalences [1%nat; 1%nat] [[[9/10; 1/10]]; [[1/5; 4/5]]] ex_preds = [1/2; 1/2].
Proof.
  split.
  - split; [reflexivity|]. apply Permutation_refl.
  - unfold copies_prevalences. cbn [combine map fst snd length]. list_lra.
Qed.

Lemma ex_represented : forall kind, dfy_represent kind [half_cut] ex_preds =
  Val match kind with PDF => [1/2; 1/2] | CDF => [1/2; 1] end.
Proof.
  intros kind. unfold dfy_represent, df_blocks, ex_preds, half_cut. cbn [combine seq map collect length fst snd col nth].
  rewrite !histogram_two. cbn [filter below length]. dec_lra. cbn.
  destruct kind; cbn; (apply (f_equal Val); list_lra).
Qed.

Lemma DFy_CDF_HD_wrong : forall ppf N fuel cvx tol, exact_cvx cvx -> exists m,
  DFy_fit ppf N fuel CDF 2 EqualWidth (Named HD) ex_labels ex_preds = Val m /\
  identifiable (mt_bins m) (mt_classes m) (mt_T m) /\
  only_result N cvx (snd (matching_predict N cvx (Named HD) tol m ex_preds)) [0; 1].
Proof.
  intros ppf N fuel cvx tol HX. rewrite ex_fit. eexists. split; [reflexivity|].
  split; [apply (ex_identifiable 0 1); lra|].
  destruct (hd_skewed (1/2) 1 (hd_objective 2 2 (matrix_of_columns [[0; 1]; [1; 1]]) [1/2; 1])) as [HB HU].
  - lra.
  - intros x. apply hd_value.
  - apply (hd_only N cvx tol fuel (dfy_represent CDF [half_cut]) _ [1/2; 1]); auto.
    + apply (ex_represented CDF).
    + apply Forall_cons; [lra|]. apply Forall_cons; [lra|]. apply Forall_nil.
Qed.

(** FriedmanME: the first class answers (1, 0) and the second (1, 1). *)
Definition fr_preds : list (list R) := [[9/10; 1/10]; [1/2; 1/2]].

Lemma fr_fit : forall N fuel crit, FriedmanME_fit N fuel crit ex_labels fr_preds =
  Val (new_matcher N fuel crit 2 (friedman_represent [1/2; 1/2]) [[1; 0]; [1; 1]]) /\
  friedman_represent [1/2; 1/2] fr_preds = Val [1; 1/2].
Proof.
  intros N fuel crit. split.
  - unfold FriedmanME_fit. change (np_unique ex_labels) with ex_labels.
    assert (EP : map (fun c => INR (zcount c ex_labels) / INR (length ex_labels)) ex_labels = [1/2; 1/2])
      by (cbn [map ex_labels]; list_lra).
    rewrite EP. unfold fit_matching. change (y_ext ex_labels (length fr_preds)) with ex_labels.
    change (Nat.eqb (length ex_labels) (length fr_preds)) with true. cbn iota.
    change (map (fun c => friedman_represent [1/2; 1/2] (select c ex_labels fr_preds)) ex_labels)
      with [friedman_represent [1/2; 1/2] [[9/10; 1/10]]; friedman_represent [1/2; 1/2] [[1/2; 1/2]]].
    assert (E1 : friedman_represent [1/2; 1/2] [[9/10; 1/10]] = Val [1; 0]).
    { unfold friedman_represent, tabulate. cbn [length seq map nth]. dec_lra. apply (f_equal Val).
      unfold rmean. list_lra. }
    assert (E2 : friedman_represent [1/2; 1/2] [[1/2; 1/2]] = Val [1; 1]).
    { unfold friedman_represent, tabulate. cbn [length seq map nth]. dec_lra. apply (f_equal Val).
      unfold rmean. list_lra. }
    rewrite E1, E2. reflexivity.
  - unfold friedman_represent, tabulate, fr_preds. cbn [length seq map nth]. dec_lra. apply (f_equal Val).
    unfold rmean. list_lra.
Qed.

Lemma fr_copies : copies_of [1%nat; 1%nat]
    (class_samples (np_unique ex_labels) (y_ext ex_labels (length fr_preds)) fr_preds) fr_preds /\
  copies_prevalences [1%nat; 1%nat]
    (class_samples (np_unique ex_labels) (y_ext ex_labels (length fr_preds)) fr_preds) fr_preds = [1/2; 1/2].
Proof.
  change (class_samples (np_unique ex_labels) (y_ext ex_labels (length fr_preds)) fr_preds) with
    [[[9/10; 1/10]]; [[1/2; 1/2]]].
  split.
  - split; [reflexivity|]. apply Permutation_refl.
  - unfold copies_prevalences, fr_preds. cbn [combine map fst snd length]. list_lra.
Qed.

Lemma Friedman_HD_wrong : forall N fuel cvx tol, exact_cvx cvx -> exists m,
  FriedmanME_fit N fuel (Named HD) ex_labels fr_preds = Val m /\
  identifiable (mt_bins m) (mt_classes m) (mt_T m) /\
  only_result N cvx (snd (matching_predict N cvx (Named HD) tol m fr_preds)) [0; 1].
Proof.
  intros N fuel cvx tol HX. destruct (fr_fit N fuel (Named HD)) as [-> HR]. eexists. split; [reflexivity|].
  split; [apply (ex_identifiable 0 1); lra|].
  destruct (hd_skewed (1/2) 1 (hd_objective 2 2 (matrix_of_columns [[1; 0]; [1; 1]]) [1; 1/2])) as [HB HU].
  - lra.
  - intros x. apply hd_value.
  - apply (hd_only N cvx tol fuel (friedman_represent [1/2; 1/2]) _ [1; 1/2]); auto.
    apply Forall_cons; [lra|]. apply Forall_cons; [lra|]. apply Forall_nil.
Qed.

(** DFX with cumulative distributions. *)
Definition ex_X : list (list R) := [[1]; [0]].

Lemma ex_fit_X : forall ppf N fuel kind crit,
  DFX_fit ppf N fuel kind 2 EqualWidth crit ex_labels 1 ex_X =
  Val (new_matcher N fuel crit 2 (dfx_represent kind [half_cut]) (ex_columns kind)) /\
  dfx_represent kind [half_cut] ex_X = Val match kind with PDF => [1/2; 1/2] | CDF => [1/2; 1] end.
Proof.
  intros ppf N fuel kind crit. split.
  - unfold DFX_fit, DFX_cuts. change (np_unique ex_labels) with ex_labels. cbn [seq map collect].
    rewrite two_cuts_range.
    + cbn [obind omap]. unfold fit_matching.
      change (Nat.eqb (length ex_labels) (length ex_X)) with true. cbn iota.
      change (map (fun c => dfx_represent kind [[NegInf; Fin (1/2); PosInf]] (select c ex_labels ex_X)) ex_labels)
        with [dfx_represent kind [[NegInf; Fin (1/2); PosInf]] [[1]];
              dfx_represent kind [[NegInf; Fin (1/2); PosInf]] [[0]]].
      assert (E : forall kind, dfx_represent kind [[NegInf; Fin (1/2); PosInf]] [[1]] = Val [0; 1] /\
                  dfx_represent kind [[NegInf; Fin (1/2); PosInf]] [[0]] =
                    Val match kind with PDF => [1; 0] | CDF => [1; 1] end).
      { intros k. unfold dfx_represent, df_blocks. cbn [combine seq map collect length fst snd col nth].
        rewrite !histogram_two. cbn [filter below length]. dec_lra. cbn.
        split; destruct k; cbn; (apply (f_equal Val); list_lra). }
      destruct (E kind) as [E1 E2]. rewrite E1, E2. cbn [collect obind omap].
      destruct kind; reflexivity.
    + discriminate.
    + cbn. unfold Rmin. dec_lra. reflexivity.
    + cbn. unfold Rmax. dec_lra; reflexivity.
  - unfold dfx_represent, df_blocks, ex_X, half_cut. cbn [combine seq map collect length fst snd col nth].
    rewrite !histogram_two. cbn [filter below length]. dec_lra. cbn.
    destruct kind; cbn; (apply (f_equal Val); list_lra).
Qed.

Lemma ex_X_copies : copies_of [1%nat; 1%nat] (class_samples (np_unique ex_labels) ex_labels ex_X) ex_X /\
  copies_prevalences [1%nat; 1%nat] (class_samples (np_unique ex_labels) ex_labels ex_X) ex_X = [1/2; 1/2].
Proof.
  change (class_samples (np_unique ex_labels) ex_labels ex_X) with [[[1]]; [[0]]].
  split.
  - split; [reflexivity|]. apply Permutation_refl.
  - unfold copies_prevalences, ex_X. cbn [combine map fst snd length]. list_lra.
Qed.

Lemma DFX_CDF_HD_wrong : forall ppf N fuel cvx tol, exact_cvx cvx -> exists m,
  DFX_fit ppf N fuel CDF 2 EqualWidth (Named HD) ex_labels 1 ex_X = Val m /\
  identifiable (mt_bins m) (mt_classes m) (mt_T m) /\
  only_result N cvx (snd (matching_predict N cvx (Named HD) tol m ex_X)) [0; 1].
Proof.
  intros ppf N fuel cvx tol HX. destruct (ex_fit_X ppf N fuel CDF (Named HD)) as [-> HR]. eexists. split; [reflexivity|].
  split; [apply (ex_identifiable 0 1); lra|].
  destruct (hd_skewed (1/2) 1 (hd_objective 2 2 (matrix_of_columns [[0; 1]; [1; 1]]) [1/2; 1])) as [HB HU].
  - lra.
  - intros x. apply hd_value.
  - apply (hd_only N cvx tol fuel (dfx_represent CDF [half_cut]) _ [1/2; 1]); auto.
    apply Forall_cons; [lra|]. apply Forall_cons; [lra|]. apply Forall_nil.
Qed.

(** ** Constant scores with the normal cut points *)

Definition flat_preds : list (list R) := [[9/10; 1/10]; [9/10; 1/10]].

Lemma flat_cuts : forall ppf, compute_bincuts ppf [9/10; 9/10] ex_labels ex_labels 2 Normal (Some (0, 1)) =
  Val [Fin (- (1/2)); Fin 0; Fin (1/2)].
Proof.
  intros ppf. unfold compute_bincuts, ex_labels. cbn [length Nat.eqb negb].
  assert (W : class_weights 2 [0; 1]%Z [0; 1]%Z = [2; 2]).
  { unfold class_weights. cbn. list_lra. }
  rewrite W.
  assert (M : weighted_mean [9/10; 9/10] [2; 2] = 9/10) by (unfold weighted_mean; cbn; lra).
  cbv zeta. rewrite M.
  replace (weighted_mean _ [2; 2]) with 0 by (unfold weighted_mean; cbn; lra).
  rewrite sqrt_0. unfold gaussian_cuts. dec_lra. unfold uniform_edges. dec_lra. unfold tabulate. cbn [seq map].
  apply (f_equal Val). repeat (apply (f_equal2 cons); [apply (f_equal Fin); simpl; lra|]). reflexivity.
Qed.

Lemma normal_loses : forall ppf N fuel crit, exists m,
  DFy_fit ppf N fuel PDF 2 Normal crit ex_labels flat_preds = Val m /\
  mt_bins m = 2%nat /\ mt_classes m = 2%nat /\
  (forall r c, (r < 2)%nat -> (c < 2)%nat -> mt_T m r c = 0) /\
  mt_represent m flat_preds = Val [0; 0].
Proof.
  intros ppf N fuel crit. unfold DFy_fit, DFy_cuts. change (np_unique ex_labels) with ex_labels.
  change (n_descriptors (length ex_labels)) with 1%nat. cbn [seq map collect].
  change (col 0 flat_preds) with [9/10; 9/10].
  rewrite flat_cuts. cbn [obind omap].
  unfold fit_matching. change (y_ext ex_labels (length flat_preds)) with ex_labels.
  change (Nat.eqb (length ex_labels) (length flat_preds)) with true. cbn iota.
  set (rep := dfy_represent PDF [[Fin (- (1/2)); Fin 0; Fin (1/2)]]).
  change (map (fun c => rep (select c ex_labels flat_preds)) ex_labels)
    with [rep [[9/10; 1/10]]; rep [[9/10; 1/10]]].
  assert (E : rep [[9/10; 1/10]] = Val [0; 0] /\ rep flat_preds = Val [0; 0]).
  { unfold rep, dfy_represent, df_blocks, flat_preds. cbn [combine seq map collect length fst snd col nth].
    unfold histogram, cum_n, tabulate. cbn [non_decreasing edge_le length Nat.sub seq map nth Nat.eqb filter below at_most].
    dec_lra. cbn. split; (apply (f_equal Val); list_lra). }
  destruct E as [-> E2]. cbn [collect obind omap]. eexists. split; [reflexivity|].
  split; [reflexivity|]. split; [reflexivity|]. split; [|exact E2].
  intros [|[|r]] [|[|c]] Hr Hc; try lia; reflexivity.
Qed.

(** ** DFy cumulative distributions leave [0, 1] with three classes *)

Lemma DFy_cdf_above : forall ppf N fuel nb strat crit y preds m, (3 <= length (np_unique y))%nat ->
  strat = EqualWidth \/ strat = EqualCount ->
  DFy_fit ppf N fuel CDF nb strat crit y preds = Val m ->
  forall c, (c < length (np_unique y))%nat ->
    mt_T m (nb * length (np_unique y) - 1)%nat c = INR (length (np_unique y)).
Proof.
  intros ppf N fuel nb strat crit y preds m Hn Hs H c Hc.
  assert (Hy : y <> []) by (intros ->; simpl in Hn; lia).
  destruct (DFy_cumulative _ _ _ _ _ _ _ _ _ Hy Hs H) as (cuts & EC & L & HV & HT & _).
  destruct (DFy_fit_inv _ _ _ _ _ _ _ _ _ _ Hy Hs H) as (_ & _ & Hnb & _).
  assert (EN : n_descriptors (length (np_unique y)) = length (np_unique y)).
  { unfold n_descriptors. destruct (Nat.eqb_spec (length (np_unique y)) 2); lia. }
  rewrite EN in L. set (n := length (np_unique y)) in *.
  destruct (HT c Hc (n - 1)%nat ltac:(lia)) as [_ E].
  replace ((n - 1) * nb + (nb - 1))%nat with (nb * n - 1)%nat in E by nia.
  rewrite minus_INR in E by lia. change (INR 1) with 1 in E. lra.
Qed.
