(** * Examples for PDFOrdinaly and ACOrdinal. *)

From Coq Require Import Reals List ZArith Lia Lra Bool Arith Permutation.
From Verif Require Import Num Spec L_Num M_Baselines L_Baselines M_Metrics L_Metrics M_Bags L_Bags M_Search
  L_Search2 M_Optim Spec_Optim L_Optim L_Optim2 L_Optim3 L_Optim4 L_Optim5 M_Match Spec_Match L_Match L_Match2 L_Match3 L_Match4
  L_Match5 L_Match6 L_Match7 L_Match8 L_Match9 L_Match10.
Import ListNotations.
Open Scope R_scope.

Definition or_labels : list Z := [0; 1; 2]%Z.
Definition or_preds : list (list R) := [[1; 0; 0]; [0; 1; 0]; [0; 0; 1]].

Lemma dist3_of : forall p, distribution_over 3 p -> exists a b, p = [a; b; 1 - a - b].
Proof.
  intros p (L & _ & Hs). destruct p as [|a [|b [|c [|e p]]]]; try discriminate.
  simpl in Hs. exists a, b. repeat f_equal. lra.
Qed.

Lemma three_identifiable :
  identifiable 3 3 (matrix_of_columns [[1; 1; 1]; [0; 1; 1]; [0; 0; 1]]) /\
  identifiable 3 3 (matrix_of_columns [[1; 1; 1]; [0; 0; 1]; [0; 0; 0]]) /\
  identifiable 4 3 (matrix_of_columns [[1; 0; 0; 0]; [0; 0; 1; 0]; [0; 0; 0; 1]]).
Proof.
  split; [|split]; intros p q Hp Hq H; destruct (dist3_of p Hp) as (a & b & ->); destruct (dist3_of q Hq) as (a' & b' & ->).
  - pose proof (H O ltac:(lia)) as H0. pose proof (H 1%nat ltac:(lia)) as H1.
    unfold mixture_at, matrix_of_columns in H0, H1. cbn in H0, H1.
    assert (a = a') by lra. assert (b = b') by lra. now subst.
  - pose proof (H O ltac:(lia)) as H0. pose proof (H 2%nat ltac:(lia)) as H1.
    unfold mixture_at, matrix_of_columns in H0, H1. cbn in H0, H1.
    assert (a = a') by lra. assert (b = b') by lra. now subst.
  - pose proof (H O ltac:(lia)) as H0. pose proof (H 2%nat ltac:(lia)) as H1.
    unfold mixture_at, matrix_of_columns in H0, H1. cbn in H0, H1.
    assert (a = a') by lra. assert (b = b') by lra. now subst.
Qed.

Lemma four_edges : uniform_edges 4 1 (INR 3) = [1; 3/2; 2; 5/2; 3].
Proof. unfold uniform_edges. replace (INR 3) with 3 by (simpl; lra). dec_lra. unfold tabulate. cbn [seq map]. list_lra. Qed.

Definition or_columns (d : ordinal_distance) : list (list R) :=
  if is_emd d then [[1; 1; 1]; [0; 0; 1]; [0; 0; 0]]
  else [[1; 0; 0; 0]; [0; 0; 1; 0]; [0; 0; 0; 1]].

Lemma or_row : forall s, s = 1 \/ s = 2 \/ s = 3 ->
  histogram [s] (map Fin [1; 3/2; 2; 5/2; 3]) =
  Val (if Req_EM_T s 1 then [1; 0; 0; 0] else if Req_EM_T s 2 then [0; 0; 1; 0] else [0; 0; 0; 1])%nat.
Proof.
  intros s Hs. unfold histogram, cum_n, tabulate.
  cbn [map non_decreasing edge_le length Nat.sub seq nth Nat.eqb filter below at_most].
  destruct Hs as [->|[->| ->]]; dec_lra; reflexivity.
Qed.

Lemma or_represent : forall d meth row s, meth <> OtherMethod -> pdfo_score meth 3 row = s -> s = 1 \/ s = 2 \/ s = 3 ->
  pdfo_represent 2 3 meth (is_emd d) [row] =
  Val (if Req_EM_T s 1 then nth 0 (or_columns d) [] else if Req_EM_T s 2 then nth 1 (or_columns d) [] else nth 2 (or_columns d) []).
Proof.
  intros d meth row s Hm E Hs. unfold pdfo_represent, or_columns.
  change (2 * (3 - 1))%nat with 4%nat. cbn iota. cbn [map length]. rewrite E, four_edges, or_row by auto.
  destruct (is_emd d); destruct (Req_EM_T s 1); [|destruct (Req_EM_T s 2)| |destruct (Req_EM_T s 2)];
    cbn; apply (f_equal Val); list_lra.
Qed.

Lemma or_scores : forall meth, meth <> OtherMethod ->
  pdfo_score meth 3 [1; 0; 0] = 1 /\ pdfo_score meth 3 [0; 1; 0] = 2 /\ pdfo_score meth 3 [0; 0; 1] = 3.
Proof.
  intros [| |] H; [| |congruence]; cbn [pdfo_score].
  - unfold expected_position. cbn. repeat split; lra.
  - unfold winner_score. cbn [first_positive]. dec_lra. cbn. repeat split; lra.
Qed.

Lemma or_fit : forall N fuel d meth, meth <> OtherMethod ->
  PDFO_fit N fuel 2 d meth or_labels or_preds =
  Val (new_matcher N fuel (pdfo_criterion d) (if is_emd d then 3 else 4) (pdfo_represent 2 3 meth (is_emd d)) (or_columns d)).
Proof.
  intros N fuel d meth Hm. unfold PDFO_fit. change (np_unique or_labels) with or_labels.
  cbn [length or_labels Nat.leb]. change (2 * (3 - 1))%nat with 4%nat.
  assert (G : fit_matching N fuel (pdfo_criterion d) (if is_emd d then (4 - 1)%nat else 4%nat)
     (pdfo_represent 2 3 meth (is_emd d)) or_labels (y_ext or_labels (length or_preds)) or_preds =
     Val (new_matcher N fuel (pdfo_criterion d) (if is_emd d then 3 else 4) (pdfo_represent 2 3 meth (is_emd d)) (or_columns d))).
  { unfold fit_matching. change (y_ext or_labels (length or_preds)) with or_labels.
    change (Nat.eqb (length or_labels) (length or_preds)) with true. cbn iota.
    set (rep := pdfo_represent 2 3 meth (is_emd d)).
    change (map (fun c => rep (select c or_labels or_preds)) or_labels)
      with [rep [[1; 0; 0]]; rep [[0; 1; 0]]; rep [[0; 0; 1]]].
    destruct (or_scores meth Hm) as (S1 & S2 & S3). unfold rep.
    rewrite (or_represent d meth _ 1 Hm S1) by auto. rewrite (or_represent d meth _ 2 Hm S2) by auto.
    rewrite (or_represent d meth _ 3 Hm S3) by auto. dec_lra. cbn [collect obind omap].
    unfold or_columns. destruct (is_emd d); reflexivity. }
  destruct meth; [exact G|exact G|congruence].
Qed.

Lemma or_facts : forall N fuel d meth, meth <> OtherMethod -> exists m,
  PDFO_fit N fuel 2 d meth or_labels or_preds = Val m /\
  identifiable (mt_bins m) (mt_classes m) (mt_T m).
Proof.
  intros N fuel d meth Hm. rewrite or_fit by auto. eexists. split; [reflexivity|].
  cbn [new_matcher mt_bins mt_classes mt_T]. unfold or_columns. destruct (is_emd d); apply three_identifiable.
Qed.

Lemma unit_row3 : forall r, In r or_preds -> distribution_over 3 r.
Proof.
  intros r H. destruct H as [<-|[<-|[<-|[]]]]; (split; [reflexivity|split; [|simpl; lra]]);
    repeat (apply Forall_cons; [lra|]); apply Forall_nil.
Qed.

Lemma or_distributions : distributions (length (np_unique or_labels)) or_preds.
Proof. apply Forall_forall. exact unit_row3. Qed.

Lemma or_copies : 
  copies_of [1%nat; 2%nat; 1%nat] (class_samples (np_unique or_labels) (y_ext or_labels (length or_preds)) or_preds)
    [[1; 0; 0]; [0; 1; 0]; [0; 1; 0]; [0; 0; 1]] /\
  copies_prevalences [1%nat; 2%nat; 1%nat] (class_samples (np_unique or_labels) (y_ext or_labels (length or_preds)) or_preds)
    [[1; 0; 0]; [0; 1; 0]; [0; 1; 0]; [0; 0; 1]] = [1/4; 1/2; 1/4].
Proof.
  change (class_samples (np_unique or_labels) (y_ext or_labels (length or_preds)) or_preds) with
    [[[1; 0; 0]]; [[0; 1; 0]]; [[0; 0; 1]]].
  split.
  - split; [reflexivity|]. apply Permutation_refl.
  - unfold copies_prevalences. cbn [combine map fst snd length]. list_lra.
Qed.

(** ACOrdinal with a perfect classifier. *)
Lemma aco_fit : forall N fuel, ACOrdinal_fit N fuel or_labels or_labels =
  Val (new_matcher N fuel (Named L1) 3 (aco_represent or_labels) [[1; 1; 1]; [0; 1; 1]; [0; 0; 1]]).
Proof.
  intros N fuel. unfold ACOrdinal_fit.
  assert (E : AC_fit or_labels or_labels = Val [Some [1; 0; 0]; Some [0; 1; 0]; Some [0; 0; 1]]).
  { unfold AC_fit. cbn. unfold confusion. cbn.
    unfold norm_row, vdiv. cbn [rsum fold_right map].
    dec_lra. apply (f_equal Val). repeat (apply (f_equal2 cons); [apply (f_equal Some); list_lra|]). reflexivity. }
  rewrite E. cbn [obind all_some omap option_map]. change (np_unique or_labels) with or_labels.
  change (length or_labels) with 3%nat.
  assert (C : map cumsum [[1; 0; 0]; [0; 1; 0]; [0; 0; 1]] = [[1; 1; 1]; [0; 1; 1]; [0; 0; 1]]).
  { cbn. repeat (apply (f_equal2 cons); [list_lra|]). reflexivity. }
  rewrite C. reflexivity.
Qed.

Lemma aco_facts : forall N fuel, exists m, ACOrdinal_fit N fuel or_labels or_labels = Val m /\
  identifiable (mt_bins m) (mt_classes m) (mt_T m).
Proof. intros. rewrite aco_fit. eexists. split; [reflexivity|]. apply three_identifiable. Qed.

Lemma aco_copies :
  copies_of [1%nat; 2%nat; 1%nat] (class_samples (np_unique or_labels) (y_ext or_labels (length or_labels)) or_labels)
    [0; 1; 1; 2]%Z /\
  copies_prevalences [1%nat; 2%nat; 1%nat] (class_samples (np_unique or_labels) (y_ext or_labels (length or_labels)) or_labels)
    [0; 1; 1; 2]%Z = [1/4; 1/2; 1/4].
Proof.
  change (class_samples (np_unique or_labels) (y_ext or_labels (length or_labels)) or_labels) with
    [[0%Z]; [1%Z]; [2%Z]].
  split.
  - split; [reflexivity|]. apply Permutation_refl.
  - unfold copies_prevalences. cbn [combine map fst snd length]. list_lra.
Qed.

(** ** PDFOrdinaly's histograms *)

Lemma pdfo_sample : forall n_bins n m s, (0 < n_bins)%nat -> (2 <= n)%nat -> distributions n s -> s <> [] ->
  distribution (tabulate (n_bins * (n - 1)) (fun k => mean_of (pdfo_feature n_bins n m k) s)) /\
  forall k, fraction_in (in_bin (score_edges n_bins n) k) (map (pdfo_score m n) s) (mean_of (pdfo_feature n_bins n m k) s).
Proof.
  intros n_bins n m s Hb Hn HD Hs. split.
  - split.
    + apply Forall_forall. intros v Hv. apply in_map_iff in Hv. destruct Hv as (k & <- & _).
      apply mean_of_nonneg. intros x. apply (pdfo_phi_nonneg n_bins n m false).
    + rewrite rsum_tabulate, <- mean_of_sumn.
      rewrite (mean_of_ext _ (fun _ => 1)); [now apply mean_of_const|].
      intros x Hx. apply pdfo_mass; auto. unfold distributions in HD. rewrite Forall_forall in HD. auto.
  - intros k. apply score_fraction; auto.
Qed.

Lemma PDFO_histogram : forall N fuel n_bins d meth y preds m, d <> OEMD ->
  PDFO_fit N fuel n_bins d meth y preds = Val m ->
  let n := length (np_unique y) in
  let bins := (n_bins * (n - 1))%nat in
  mt_bins m = bins /\
  (distributions n preds -> forall c, (c < n)%nat ->
     distribution (tabulate bins (fun k => mt_T m k c)) /\
     forall k, (k < bins)%nat ->
       fraction_in (in_bin (score_edges n_bins n) k)
         (map (pdfo_score meth n) (select (nth c (np_unique y) 0%Z) (y_ext y (length preds)) preds)) (mt_T m k c)) /\
  forall cvx bags bag, distributions n bag -> bag <> [] ->
    exists t, mt_represent (after_predictions N cvx (pdfo_criterion d) 0 m bags) bag = Val t /\
      length t = bins /\ distribution t /\
      forall k, (k < bins)%nat ->
        fraction_in (in_bin (score_edges n_bins n) k) (map (pdfo_score meth n) bag) (nth k t 0).
Proof.
  intros N fuel n_bins d meth y preds m Hd HF n bins.
  destruct (PDFO_fit_inv _ _ _ _ _ _ _ _ HF) as (Hnb & Hn & Hm & HM). fold n in Hn, HM.
  assert (EE : is_emd d = false) by (destruct d; auto; congruence).
  rewrite EE in HM. unfold pdfo_dim in HM. fold bins in HM.
  pose proof (pdfo_averages' n_bins n meth false Hnb ltac:(lia)) as HA. unfold pdfo_dim in HA. fold bins in HA.
  destruct (fitted_facts _ _ _ _ _ _ _ _ _ _ HA (pdfo_nil n_bins n meth false) HM) as (B1 & _ & HR & HS & HT).
  split; [auto|]. split.
  - intros HDp c Hc.
    destruct (pdfo_sample n_bins n meth (select (nth c (np_unique y) 0%Z) (y_ext y (length preds)) preds) Hnb ltac:(lia)) as [P1 P2].
    + unfold distributions in *. rewrite Forall_forall in *. intros x Hx. apply HDp. eapply select_in; eauto.
    + now apply HS.
    + fold bins in P1. split.
      * rewrite (tabulate_ext bins _ (fun k => mean_of (pdfo_feature n_bins n meth k)
           (select (nth c (np_unique y) 0%Z) (y_ext y (length preds)) preds))); [exact P1|].
        intros k Hk. rewrite HT by auto. reflexivity.
      * intros k Hk. rewrite HT by auto. apply P2.
  - intros cvx bags bag HDb Hb.
    destruct (fit_represent _ _ _ _ _ _ _ _ _ HM) as [_ HK].
    destruct (bag_representation N cvx (pdfo_criterion d) 0 m bags bag _ _ _ HK HR HA Hb) as (t & Ht & Lt & Et).
    destruct (pdfo_sample n_bins n meth bag Hnb ltac:(lia) HDb Hb) as [P1 P2]. fold bins in P1.
    exists t. split; [auto|]. split; [auto|]. split.
    + replace t with (tabulate bins (fun k => mean_of (pdfo_feature n_bins n meth k) bag)); [exact P1|].
      apply (nth_ext _ _ 0 0); rewrite tabulate_length; [auto|]. intros k Hk. rewrite tabulate_nth by auto.
      rewrite Et by auto. reflexivity.
    + intros k Hk. rewrite Et by auto. apply P2.
Qed.
