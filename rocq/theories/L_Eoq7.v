(** * Examples and counterexamples for the ensembles of quantifiers. *)

From Coq Require Import Reals List ZArith Lra Lia Permutation Bool.
From Verif Require Import Num Spec L_Num M_Baselines M_Metrics M_Bags Spec_Bags L_Bags L_Bags2 L_Bags3 M_Match Spec_Match
  L_Match L_Match10 M_Reg Spec_Reg L_Reg L_Reg2 L_Reg3 L_Reg4 L_Reg5 L_Reg6 M_Eoq Spec_Eoq L_Eoq L_Eoq2 L_Eoq3 L_Eoq4 L_Eoq5 L_Eoq6.
Import ListNotations.
Open Scope R_scope.

(** ** An argsort *)

Lemma place_perm : forall l x s, Permutation (place l x s) (x :: s).
Proof.
  intros l x s. induction s as [|h t IH]; cbn; [reflexivity|]. destruct (Rle_dec _ _); [reflexivity|].
  rewrite IH. apply perm_swap.
Qed.

Fixpoint rising (l : list R) (s : list nat) : Prop :=
  match s with
  | [] => True
  | x :: t => (forall z, In z t -> nth x l 0 <= nth z l 0) /\ rising l t
  end.

Lemma place_rising : forall l x s, rising l s -> rising l (place l x s).
Proof.
  intros l x s. induction s as [|h t IH]; cbn; [intros _; split; [intros z []|exact I]|]. intros [H1 H2].
  destruct (Rle_dec (nth x l 0) (nth h l 0)) as [H|H]; cbn.
  - split; [|auto]. intros z [->|Hz]; [auto|]. specialize (H1 z Hz). lra.
  - split; [|auto]. intros z Hz. apply (Permutation_in _ (place_perm l x t)) in Hz. destruct Hz as [->|Hz]; [lra|auto].
Qed.

Lemma rising_ascending : forall l s, rising l s -> ascending (map (fun i => nth i l 0) s).
Proof.
  intros l s. induction s as [|x t IH]; intros H i Hi; cbn in Hi; [lia|]. destruct H as [H1 H2].
  destruct i as [|i].
  - destruct t as [|z t]; cbn in *; [lia|]. apply H1. now left.
  - cbn. apply (IH H2 i). cbn. lia.
Qed.

Lemma fold_place : forall l idx, Permutation (fold_right (place l) [] idx) idx /\ rising l (fold_right (place l) [] idx).
Proof.
  intros l idx. induction idx as [|x idx [IH1 IH2]]; cbn; [split; [reflexivity|exact I]|].
  split; [rewrite place_perm; now apply perm_skip|now apply place_rising].
Qed.

Lemma insertion_sorts : sorts insertion_argsort.
Proof.
  intros l. destruct (fold_place l (seq 0 (length l))) as [H1 H2]. split; [exact H1|]. now apply rising_ascending.
Qed.

Lemma place_same : forall l l' x s, (forall h, In h s -> (nth x l 0 <= nth h l 0 <-> nth x l' 0 <= nth h l' 0)) ->
  place l x s = place l' x s.
Proof.
  intros l l' x s. induction s as [|h t IH]; intros H; cbn; [reflexivity|].
  destruct (H h (or_introl eq_refl)) as [A B].
  destruct (Rle_dec (nth x l 0) (nth h l 0)), (Rle_dec (nth x l' 0) (nth h l' 0)); try tauto.
  f_equal. apply IH. intros z Hz. apply H. now right.
Qed.

Lemma insertion_compares : only_compares insertion_argsort.
Proof.
  intros l l' L H. unfold insertion_argsort. rewrite <- L.
  assert (G : forall idx, (forall i, In i idx -> (i < length l)%nat) ->
            fold_right (place l) [] idx = fold_right (place l') [] idx).
  { induction idx as [|x idx IH]; intros HI; cbn; [reflexivity|]. rewrite <- IH by (intros i Hi; apply HI; now right).
    apply place_same. intros h Hh. apply H; [apply HI; now left|]. apply HI. right.
    exact (Permutation_in _ (proj1 (fold_place l idx)) Hh). }
  apply G. intros i Hi. apply in_seq in Hi. lia.
Qed.

(** ** Two members, two classes, predictions with probabilities *)

Definition ep2 (c : combination) (percentage : R) : eoq_params :=
  {| ep_n := 2; ep_combination := c; ep_function := PDF; ep_bins := 2; ep_strategy := EqualWidth; ep_percentage := percentage |}.
Definition no_generator : settable unit := {| se_source := fixed_source []; se_set := fun _ s => s |}.
Definition two_bags : list bag := [([1; 0], [0; 0]%nat); ([0; 1], [1; 1]%nat)].
Definition pure_rows : list (list R) := [[1; 0]; [0; 1]].
Definition pair_q : eoq (list R) :=
  {| eq_classes := [0; 1]%Z; eq_bags := two_bags; eq_cuts := [half_cut]; eq_quantifiers := [[1; 0]; [0; 1]];
     eq_distributions := [[1/2; 1/2]; [1/2; 1/2]] |}.

Lemma fraction_same : forall (c d : Z), fraction c [d; d] = if Z.eq_dec d c then 1 else 0.
Proof.
  intros c d. unfold fraction, zcount. cbn [count_occ length]. destruct (Z.eq_dec d c); cbn; lra.
Qed.

Lemma pure_describe : describe [half_cut] 2 pure_rows = Val [1/2; 1/2].
Proof.
  rewrite describe_half by lia. unfold pure_rows. cbn [col map nth filter below]. dec_lra. cbn [length Nat.sub].
  apply (f_equal Val). list_lra.
Qed.

Lemma pair_fit : forall c percentage ppf,
  EoQ_fit no_generator ppf (prior_using 2) (ep2 c percentage) 0 [] [0; 1]%Z (Soft pure_rows) (Some two_bags) tt = Some (Val pair_q, tt).
Proof.
  intros c percentage ppf. unfold EoQ_fit, eoq_bags, prior_using, fit_using. cbn [obind n_predictions].
  change (y_ext [0%Z; 1%Z] (length pure_rows)) with [0; 1]%Z. change (np_unique [0; 1]%Z) with [0; 1]%Z.
  unfold extended_indexes. cbn [length pure_rows Nat.eqb obind two_bags map snd ep2 ep_n seq].
  unfold collect at 1. cbn [item nth_error obind items map collect omap member_predictions].
  unfold tabulate. cbn [map seq]. rewrite !fraction_same. cbn [Z.of_nat Pos.of_succ_nat].
  destruct (Z.eq_dec 0 0) as [_|]; [|congruence]. destruct (Z.eq_dec 1 1) as [_|]; [|congruence].
  destruct (Z.eq_dec 0 1) as [|_]; [congruence|]. destruct (Z.eq_dec 1 0) as [|_]; [congruence|].
  unfold eoq_prediction_cuts. cbn [described length n_descriptors Nat.eqb seq map ep2 ep_bins ep_strategy].
  change (collect [compute_bincuts ppf (col 0 pure_rows) [0%Z; 1%Z] [0%Z; 1%Z] 2 EqualWidth None])
    with (obind (compute_bincuts ppf (col 0 pure_rows) [0%Z; 1%Z] [0%Z; 1%Z] 2 EqualWidth None) (fun v => Val [v])).
  rewrite two_cuts_range.
  2:{ discriminate. }
  2:{ cbn. unfold Rmin. dec_lra; lra. }
  2:{ cbn. unfold Rmax. dec_lra; lra. }
  cbn [obind omap]. unfold eoq_prediction_distributions, eoq_distributions. cbn [described seq map ep2 ep_n ep_function eoq_distribution].
  change (length pure_rows) with 2%nat. fold half_cut. rewrite pure_describe. reflexivity.
Qed.

Lemma pair_trained : forall c percentage, trained (prior_using 2) (ep2 c percentage) [] [0; 1]%Z (Soft pure_rows) pair_q.
Proof. intros c percentage. exists unit, no_generator, (fun x => x), 0%nat, (Some two_bags), tt, tt. apply pair_fit. Qed.

Lemma pair_answers : forall X rows, members_answer (prior_using 2) pair_q X (Soft rows) [[1; 0]; [0; 1]].
Proof.
  intros X rows. split; [reflexivity|]. intros i m Hi. exists (Soft rows). split; [reflexivity|].
  destruct i as [|[|i]]; cbn in Hi; try (inversion Hi; subst; reflexivity). destruct i; discriminate.
Qed.

Lemma pair_distributions : distributions 2 [[1; 0]; [0; 1]].
Proof.
  apply Forall_cons; [|apply Forall_cons; [|apply Forall_nil]]; (split; [reflexivity|]); split;
    try (apply Forall_cons; [lra|apply Forall_cons; [lra|apply Forall_nil]]); cbn; lra.
Qed.

Lemma pair_average : average_answer 2 [[1; 0]; [0; 1]] (seq 0 2) [1/2; 1/2].
Proof.
  split; [reflexivity|]. intros c Hc. destruct c as [|[|c]]; [| |lia]; unfold rmean; cbn; lra.
Qed.

Lemma pair_medians : medians 2 [[1; 0]; [0; 1]] [1/2; 1/2].
Proof.
  split; [reflexivity|]. intros c Hc. exists [0; 1].
  split; [|split].
  - destruct c as [|[|c]]; [| |lia]; cbn; [apply perm_swap|reflexivity].
  - intros i Hi. cbn in Hi. destruct i; [cbn; lra|lia].
  - right. exists 0%nat. split; [reflexivity|]. destruct c as [|[|c]]; [| |lia]; cbn; lra.
Qed.

Lemma pair_test : test_bag (prior_using 2) pair_q 0 [] (Soft [[0; 1]]) [[0; 1]].
Proof. split; [discriminate|]. reflexivity. Qed.

(** ** Only the whole training set is described *)

Lemma bags_not_described : exists i row, nth_error (eq_distributions pair_q) i = Some row /\
  ~ bin_counts 2 (eq_cuts pair_q) 2 (examples pure_rows [1; 1]%nat) row /\ nth_error (map snd (eq_bags pair_q)) i = Some [1; 1]%nat.
Proof.
  exists 1%nat, [1/2; 1/2]. split; [reflexivity|]. split; [|reflexivity]. intros [_ H].
  destruct (H 0%nat 0%nat) as (c & HC & E); [cbn; lia|lia|]. cbn in E.
  assert (I : in_bin half_cut 0 0) by (split; [intros K; exact K|cbn; lra]).
  assert (c = 2%nat); [|subst c; cbn in E; lra].
  apply (how_many_fun (in_bin half_cut 0) [0; 0]); [exact HC|]. apply hm_yes; [auto|]. apply hm_yes; [auto|]. apply hm_nil.
Qed.

Lemma insertion_equal : forall v, insertion_argsort [v; v] = [0; 1]%nat.
Proof. intros v. unfold insertion_argsort. cbn. destruct (Rle_dec v v); [reflexivity|lra]. Qed.

Lemma one_selected : forall c, n_selected (ep2 c (1/2)) = 1%Z.
Proof.
  intros c. pose proof (n_selected_pos (ep2 c (1/2)) ltac:(cbn; lra)) as H1.
  pose proof (n_selected_near (ep2 c (1/2)) ltac:(cbn; lra)) as H2.
  change (INR (ep_n (ep2 c (1 / 2)))) with (1 + 1) in H2. change (ep_percentage (ep2 c (1/2))) with (1/2) in H2.
  destruct (Z.eq_dec (n_selected (ep2 c (1/2))) 1) as [|N]; [auto|exfalso].
  assert (2 <= Z.to_nat (n_selected (ep2 c (1 / 2))))%nat as L by lia. apply le_INR in L. change (INR 2) with (1 + 1) in L.
  rewrite Rabs_right in H2; lra.
Qed.

(** The test bag is the second bag of the training; the member trained with the first bag is selected. *)
Lemma far_bag_selected : forall distance,
  EoQ_predict insertion_argsort distance (prior_using 2) (ep2 DistributionSimilarity (1/2)) pair_q 0 [] (Soft (examples pure_rows [1; 1]%nat)) =
    Val (Vector [1; 0]).
Proof.
  intros distance. unfold EoQ_predict.
  rewrite (members_prevalences (prior_using 2) (ep2 DistributionSimilarity (1/2)) pair_q [] (Soft (examples pure_rows [1; 1]%nat)) [[1; 0]; [0; 1]] eq_refl
    (pair_answers _ _) (arrays_distributions _ _ pair_distributions)). cbn [obind].
  unfold combine_members. cbn [ep2 ep_combination test_distribution prior_using described ep_function eoq_distribution pair_q eq_classes eq_cuts length].
  change (examples pure_rows [1%nat; 1%nat]) with [[0; 1]; [0; 1]]. cbn [length]. rewrite describe_half by lia.
  cbn [col map nth filter below]. dec_lra. cbn [length Nat.sub obind].
  unfold distribution_selected. cbn [eq_distributions pair_q map length Nat.eqb collect obind omap].
  rewrite one_selected, insertion_equal. change (rows_at (slice 1 [0%nat; 1%nat]) [[1; 0]; [0; 1]]) with [[1; 0]].
  unfold mean_of_rows, normalised, col_means, tabulate, rmean. cbn [seq map col rsum fold_right length INR nth].
  destruct (Req_EM_T _ 0) as [E|_]; [exfalso; cbn in E; lra|]. cbn. apply (f_equal Val). apply f_equal. list_lra.
Qed.

(** ** Three members, three classes: the medians are 0 *)

Definition ep3 (c : combination) : eoq_params :=
  {| ep_n := 3; ep_combination := c; ep_function := PDF; ep_bins := 2; ep_strategy := EqualWidth; ep_percentage := 1/2 |}.
Definition corner_bags : list bag := [([1; 0; 0], [0; 0]%nat); ([0; 1; 0], [1; 1]%nat); ([0; 0; 1], [2; 2]%nat)].
Definition corners : list (list R) := [[1; 0; 0]; [0; 1; 0]; [0; 0; 1]].
Definition corner_q : eoq (list R) :=
  {| eq_classes := [0; 1; 2]%Z; eq_bags := corner_bags; eq_cuts := repeat (repeat (Fin 0) 3) 3; eq_quantifiers := corners;
     eq_distributions := repeat (repeat 0 6) 3 |}.

Lemma corner_fit : forall c ppf,
  EoQ_fit no_generator ppf (prior_using 3) (ep3 c) 0 [] [0; 1; 2]%Z (Crisp [0; 1; 2]%Z) (Some corner_bags) tt = Some (Val corner_q, tt).
Proof.
  intros c ppf. unfold EoQ_fit, eoq_bags, prior_using, fit_using. cbn [obind n_predictions].
  change (y_ext [0%Z; 1%Z; 2%Z] (length [0%Z; 1%Z; 2%Z])) with [0; 1; 2]%Z. change (np_unique [0; 1; 2]%Z) with [0; 1; 2]%Z.
  unfold extended_indexes. cbn [length Nat.eqb obind corner_bags map snd ep3 ep_n seq].
  unfold collect at 1. cbn [item nth_error obind items map collect omap member_predictions].
  unfold tabulate. cbn [map seq]. rewrite !fraction_same. cbn [Z.of_nat Pos.of_succ_nat Pos.succ].
  repeat match goal with |- context [Z.eq_dec ?a ?b] =>
    destruct (Z.eq_dec a b) as [e|e]; [try discriminate e|try (exfalso; apply e; reflexivity)]; clear e end.
  unfold eoq_prediction_cuts. cbn [described obind omap]. reflexivity.
Qed.

Lemma corner_trained : forall c, trained (prior_using 3) (ep3 c) [] [0; 1; 2]%Z (Crisp [0; 1; 2]%Z) corner_q.
Proof. intros c. exists unit, no_generator, (fun x => x), 0%nat, (Some corner_bags), tt, tt. apply corner_fit. Qed.

Lemma corner_answers : forall X ps, members_answer (prior_using 3) corner_q X (Crisp ps) corners.
Proof.
  intros X ps. split; [reflexivity|]. intros i m Hi. exists (Crisp ps). split; [reflexivity|].
  destruct i as [|[|[|i]]]; cbn in Hi; try (inversion Hi; subst; reflexivity). destruct i; discriminate.
Qed.

Lemma corner_distributions : distributions 3 corners.
Proof.
  apply Forall_cons; [|apply Forall_cons; [|apply Forall_cons; [|apply Forall_nil]]]; (split; [reflexivity|]); split;
    try (apply Forall_cons; [lra|apply Forall_cons; [lra|apply Forall_cons; [lra|apply Forall_nil]]]); cbn; lra.
Qed.

Lemma corner_medians : medians 3 corners [0; 0; 0].
Proof.
  split; [reflexivity|]. intros c Hc. exists [0; 0; 1]. split; [|split].
  - destruct c as [|[|[|c]]]; [| | |lia]; cbn.
    + symmetry. apply (Permutation_cons_append [0; 0] 1).
    + apply perm_skip. apply perm_swap.
    + reflexivity.
  - intros i Hi. cbn in Hi. destruct i as [|[|i]]; cbn; try lra. lia.
  - left. exists 1%nat. split; [reflexivity|]. destruct c as [|[|[|c]]]; [reflexivity|reflexivity|reflexivity|lia].
Qed.

Lemma corner_nan : forall argsort distance k X ps,
  EoQ_predict argsort distance (prior_using 3) (ep3 CMedian) corner_q k X (Crisp ps) = NotANumber.
Proof.
  intros argsort distance k X ps.
  destruct (median_after_fit _ argsort distance (prior_using 3) (ep3 CMedian) [] [0; 1; 2]%Z (Crisp [0; 1; 2]%Z) corner_q k X (Crisp ps)
    corners (corner_trained _) (corner_answers X ps) corner_distributions [0; 0; 0] ltac:(cbn; lia) eq_refl corner_medians) as [H _].
  apply H. cbn. lra.
Qed.

(** ** A bag without one of the classes *)

Definition missing_q : eoq (list Z) :=
  {| eq_classes := [0; 1]%Z; eq_bags := two_bags; eq_cuts := repeat (repeat (Fin 0) 3) 1; eq_quantifiers := [[0]; [1]]%Z;
     eq_distributions := repeat (repeat 0 2) 2 |}.

Lemma missing_fit : forall c percentage ppf,
  EoQ_fit no_generator ppf counting_base (ep2 c percentage) 0 [] [0; 1]%Z (Crisp [0; 1]%Z) (Some two_bags) tt = Some (Val missing_q, tt).
Proof. reflexivity. Qed.

Lemma missing_trained : forall c percentage, trained counting_base (ep2 c percentage) [] [0; 1]%Z (Crisp [0; 1]%Z) missing_q.
Proof. intros c percentage. exists unit, no_generator, (fun x => x), 0%nat, (Some two_bags), tt, tt. reflexivity. Qed.

Lemma missing_answers : forall X, members_answer counting_base missing_q X (Crisp [1; 1]%Z) [[0]; [1]].
Proof.
  intros X. split; [reflexivity|]. intros i m Hi. exists (Crisp [1; 1]%Z). split; [reflexivity|].
  destruct i as [|[|i]]; cbn in Hi; try (inversion Hi; subst; cbn [counting_base map nth]; rewrite fraction_same; reflexivity).
  destruct i; discriminate.
Qed.

Lemma missing_widened : widened 2 [[0]; [1]] [[0; 0]; [1; 1]].
Proof.
  apply Forall2_cons; [|apply Forall2_cons; [|apply Forall2_nil]]; (split; [reflexivity|]); right; eexists; (split; [reflexivity|]);
    intros c Hc; destruct c as [|[|c]]; try reflexivity; lia.
Qed.

Lemma missing_predict : forall argsort distance percentage k X,
  EoQ_predict argsort distance counting_base (ep2 CMean percentage) missing_q k X (Crisp [1; 1]%Z) = Val (Vector [1/2; 1/2]).
Proof.
  intros argsort distance percentage k X. unfold EoQ_predict.
  rewrite (widened_prevalences counting_base (ep2 CMean percentage) missing_q X (Crisp [1; 1]%Z) [[0]; [1]] [[0; 0]; [1; 1]] eq_refl (missing_answers X) missing_widened).
  cbn [obind]. unfold combine_members. cbn [ep2 ep_combination missing_q eq_classes length].
  unfold mean_of_rows, normalised, col_means, tabulate, rmean. cbn [seq map col rsum fold_right length INR nth].
  destruct (Req_EM_T _ 0) as [E|_]; [exfalso; cbn in E; lra|]. cbn. apply (f_equal Val). apply f_equal. list_lra.
Qed.

(** ** The default generator shared by two ensembles *)

Definition ep1 : eoq_params :=
  {| ep_n := 1; ep_combination := CMean; ep_function := PDF; ep_bins := 2; ep_strategy := EqualWidth; ep_percentage := 1/2 |}.

Lemma default_shared : exists q1 g1 q2 g2,
  EoQ_fit (settable_prior lowest_rng 1) (fun x => x) (prior_using 2) ep1 0 [] [0; 1]%Z (Crisp [0; 1]%Z) None (lazy_ps, tt) = Some (Val q1, g1) /\
  EoQ_fit (settable_prior lowest_rng 1) (fun x => x) (prior_using 2) ep1 0 [] [1; 0]%Z (Crisp [1; 0]%Z) None g1 = Some (Val q2, g2) /\
  Forall (honest_bag [0; 1]%Z 2) (eq_bags q1) /\ eq_bags q2 = eq_bags q1 /\ ~ Forall (honest_bag [1; 0]%Z 2) (eq_bags q2).
Proof.
  destruct (lazy_generate []) as (s' & HG & HN).
  assert (H1 : EoQ_fit (settable_prior lowest_rng 1) (fun x => x) (prior_using 2) ep1 0 [] [0; 1]%Z (Crisp [0; 1]%Z) None (lazy_ps, tt) =
    Some (Val {| eq_classes := [0; 1]%Z; eq_bags := last_bags; eq_cuts := [repeat (Fin 0) 3]; eq_quantifiers := [[fraction 0 [1; 1]%Z; fraction 1 [1; 1]%Z]];
                 eq_distributions := [[0; 0]] |}, (s', tt))).
  { unfold EoQ_fit, eoq_bags. change (se_set (settable_prior lowest_rng 1) (ep_n ep1) (lazy_ps, tt)) with (lazy_ps, tt).
    change (bs_generate (se_source (settable_prior lowest_rng 1)) [] [0%Z; 1%Z] (lazy_ps, tt))
      with (bs_generate (prior_source lowest_rng 1) [] ex_labels (lazy_ps, tt)). rewrite HG. reflexivity. }
  destruct (prior_keeps lowest_rng 1 (ep_n ep1) [] [0; 1]%Z (lazy_ps, tt) last_bags (s', tt) HG (ep_n ep1) [] [1; 0]%Z) as [].
  assert (H2 : EoQ_fit (settable_prior lowest_rng 1) (fun x => x) (prior_using 2) ep1 0 [] [1; 0]%Z (Crisp [1; 0]%Z) None (s', tt) =
    Some (Val {| eq_classes := [0; 1]%Z; eq_bags := last_bags; eq_cuts := [repeat (Fin 0) 3]; eq_quantifiers := [[fraction 0 [0; 0]%Z; fraction 1 [0; 0]%Z]];
                 eq_distributions := [[0; 0]] |}, se_set (settable_prior lowest_rng 1) 1 (s', tt))).
  { unfold EoQ_fit, eoq_bags.
    pose proof (prior_keeps lowest_rng 1 (ep_n ep1) [] [0; 1]%Z (lazy_ps, tt) last_bags (s', tt) HG (ep_n ep1) [] [1; 0]%Z) as K.
    rewrite K. reflexivity. }
  eexists _, _, _, _. split; [exact H1|]. split; [exact H2|]. cbn [eq_bags]. split; [|split; [reflexivity|]].
  - apply Forall_cons; [|apply Forall_nil].
    split; [reflexivity|]. split; [repeat (apply Forall_cons; [simpl; lia|]); apply Forall_nil|]. split; [reflexivity|].
    intros i Hi. change (np_unique [0%Z; 1%Z]) with ex_labels in *. cbn [ex_labels length] in Hi.
    destruct i as [|[|i]]; [| |lia]; cbn [nth fst snd bag_labels map ex_labels]; rewrite fraction_same; cbn; lra.
  - intros F. destruct (Forall_inv F) as (_ & _ & _ & H). specialize (H 0%nat). change (np_unique [1%Z; 0%Z]) with ex_labels in H.
    specialize (H ltac:(cbn; lia)). cbn [nth fst snd bag_labels map ex_labels last_bags] in H. rewrite fraction_same in H. cbn in H. lra.
Qed.
