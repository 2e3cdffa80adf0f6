(** * Ensembles of quantifiers: members, combination strategies. *)

From Coq Require Import Reals List ZArith Lra Lia Permutation Bool.
From Verif Require Import Num Spec L_Num M_Baselines M_Metrics L_Metrics M_Bags Spec_Bags L_Bags M_Match Spec_Match
  L_Match L_Match2 L_Match3 L_Match6 L_Match7 L_Match12 M_Reg Spec_Reg L_Reg L_Reg2 M_Eoq Spec_Eoq.
Import ListNotations.
Open Scope R_scope.

(** ** Helpers *)

Lemma item_val : forall {A} (l : list A) i v, item l i = Val v <-> nth_error l i = Some v.
Proof.
  intros. unfold item. destruct (nth_error l i); split; intros H; inversion H; auto.
Qed.

Lemma item_ok : forall {A} (l : list A) i d, (i < length l)%nat -> item l i = Val (nth i l d).
Proof. intros. apply item_val. now apply nth_error_nth'. Qed.

Lemma item_err : forall {A} (l : list A) i, (length l <= i)%nat -> item l i = Err IndexError.
Proof. intros. unfold item. apply nth_error_None in H. now rewrite H. Qed.

Lemma collect_nth : forall {A B} (f : A -> out B) l vs, collect (map f l) = Val vs ->
  forall i d d', (i < length l)%nat -> f (nth i l d) = Val (nth i vs d').
Proof.
  intros A B f l vs H i d d' Hi. pose proof (collect_length _ _ H) as L. rewrite map_length in L.
  apply collect_inv in H. assert (E : nth i (map f l) (f d) = nth i (map Val vs) (f d)) by now rewrite H.
  rewrite map_nth in E. rewrite E. rewrite (nth_indep _ (f d) (Val d')) by (rewrite map_length; lia).
  now rewrite map_nth.
Qed.

Lemma items_ok : forall {A} (l : list A) idx d, Forall (fun i => (i < length l)%nat) idx ->
  items idx l = Val (map (fun i => nth i l d) idx).
Proof.
  intros A l idx d H. unfold items. apply collect_val. intros i Hi. apply item_ok.
  rewrite Forall_forall in H. auto.
Qed.

Lemma items_inv : forall {A} (l : list A) idx d vs, items idx l = Val vs ->
  Forall (fun i => (i < length l)%nat) idx /\ vs = map (fun i => nth i l d) idx.
Proof.
  intros A l idx d vs H. assert (F : Forall (fun i => (i < length l)%nat) idx).
  { apply Forall_forall. intros i Hi. destruct (collect_forall _ _ _ H i Hi) as (v & Hv).
    apply item_val in Hv. apply nth_error_Some. congruence. }
  split; [auto|]. rewrite (items_ok l idx d F) in H. now inversion H.
Qed.

Lemma nth_map_seq : forall {A} (f : nat -> A) n i d, (i < n)%nat -> nth i (map f (seq 0 n)) d = f i.
Proof. intros. exact (tabulate_nth n f i d H). Qed.

Lemma tabulate_id : forall {A} (l : list A) d, map (fun i => nth i l d) (seq 0 (length l)) = l.
Proof.
  intros A l d. apply (nth_ext _ _ d d); [now rewrite map_length, seq_length|].
  intros i Hi. rewrite map_length, seq_length in Hi. now rewrite nth_map_seq.
Qed.

(** ** The members *)

Definition arrays (n : nat) (rows : list (list R)) : Prop := Forall (fun r => length r = n) rows.

Lemma store_same : forall n v, length v = n -> store_row n v = Val v.
Proof. intros. unfold store_row. now rewrite H, Nat.eqb_refl. Qed.

Lemma predictions_for_test : forall i preds pi, predictions_for i preds pi -> test_predictions i preds = Val pi.
Proof.
  intros i preds pi H. destruct preds as [l|l|l]; cbn in H |- *; subst; auto.
  destruct H as (rows & -> & HL & H). replace (collect (map (fun m => item m i) l)) with (Val rows); [reflexivity|].
  symmetry. revert rows HL H. induction l as [|m l IH]; intros rows HL H; destruct rows as [|r rows]; try discriminate; auto.
  cbn [map collect]. rewrite (proj2 (item_val m i r)). 2:{ apply (H 0%nat m eq_refl). }
  cbn. rewrite (IH rows); [reflexivity|auto|]. intros j ex Hj. apply (H (S j) ex Hj).
Qed.

Lemma members_prevalences : forall {Q} (b : base Q) p q X preds answers,
  length (eq_quantifiers q) = ep_n p -> members_answer b q X preds answers -> arrays (length (eq_classes q)) answers ->
  member_prevalences b p q X preds = Val answers.
Proof.
  intros Q b p q X preds answers HN (HL & HA) HR. unfold member_prevalences.
  assert (E : answers = map (fun i => nth i answers []) (seq 0 (ep_n p))).
  { rewrite <- HN, <- HL. symmetry. apply (tabulate_id answers []). }
  rewrite E at 1. apply collect_val. intros i Hi. apply in_seq in Hi.
  destruct (nth_error (eq_quantifiers q) i) as [m|] eqn:Em.
  2:{ apply nth_error_None in Em. lia. }
  rewrite (proj2 (item_val _ _ _) Em). cbn [obind]. pose proof (HA i m Em) as H.
  assert (LR : length (nth i answers []) = length (eq_classes q)).
  { unfold arrays in HR. rewrite Forall_forall in HR. apply HR. apply nth_In. lia. }
  destruct b as [f pr|f pr|]; [| |destruct H].
  - rewrite H. cbn. now apply store_same.
  - destruct H as (pi & Hpi & H). rewrite (predictions_for_test _ _ _ Hpi). cbn. rewrite H. cbn. now apply store_same.
Qed.

(** ** Average *)

Lemma average_of_rows : forall n answers sel, average_answer n answers sel (col_means n (rows_at sel answers)).
Proof.
  intros n answers sel. split; [apply col_means_length|]. intros c Hc. unfold col_means, col, rows_at.
  rewrite nth_map_seq by auto. now rewrite map_map.
Qed.

Lemma average_all : forall n answers, average_answer n answers (seq 0 (length answers)) (col_means n answers).
Proof.
  intros n answers. assert (E : rows_at (seq 0 (length answers)) answers = answers).
  { unfold rows_at. apply (tabulate_id answers []). }
  pose proof (average_of_rows n answers (seq 0 (length answers))) as H. now rewrite E in H.
Qed.

Lemma normalised_distribution : forall v, distribution v -> normalised v = Val v.
Proof.
  intros v [_ H]. unfold normalised. rewrite H. destruct (Req_EM_T 1 0); [lra|]. now rewrite vdiv_1.
Qed.

Lemma mean_of_rows_val : forall n rows, rows <> [] -> distributions n rows ->
  mean_of_rows n rows = Val (col_means n rows) /\ distribution_over n (col_means n rows).
Proof.
  intros n rows Hr HD. pose proof (distribution_over_col_means n rows Hr HD) as D. split; [|auto].
  unfold mean_of_rows. destruct rows; [congruence|]. apply normalised_distribution. apply D.
Qed.

Lemma arrays_distributions : forall n rows, distributions n rows -> arrays n rows.
Proof. intros n rows H. apply (Forall_impl _ (fun r (D : distribution_over n r) => proj1 D) H). Qed.

Lemma mean_strategy : forall {Q} argsort distance (b : base Q) p q k X preds answers, ep_combination p = CMean ->
  length (eq_quantifiers q) = ep_n p -> (0 < ep_n p)%nat ->
  members_answer b q X preds answers -> distributions (length (eq_classes q)) answers ->
  exists r, EoQ_predict argsort distance b p q k X preds = Val (Vector r) /\
    average_answer (length (eq_classes q)) answers (seq 0 (ep_n p)) r /\ distribution_over (length (eq_classes q)) r.
Proof.
  intros Q argsort distance b p q k X preds answers HC HN Hn HM HD. unfold EoQ_predict.
  rewrite (members_prevalences _ _ _ _ _ answers HN HM (arrays_distributions _ _ HD)). cbn [obind].
  unfold combine_members. rewrite HC. destruct HM as (HL & _).
  assert (Hr : answers <> []) by (intros ->; cbn in HL; lia).
  destruct (mean_of_rows_val _ answers Hr HD) as (E & D). rewrite E. cbn. eexists. split; [reflexivity|].
  split; [|auto]. rewrite <- HN, <- HL. apply average_all.
Qed.

(** ** Median *)

Lemma sorted_ascending : forall l, sorted l -> ascending l.
Proof. intros l H i Hi. apply H; lia. Qed.

Lemma median_spec : forall l, l <> [] -> median_of l (median l).
Proof.
  intros l Hl. exists (rsort l). split; [apply rsort_perm|]. split; [apply sorted_ascending, rsort_sorted|].
  unfold median. assert (0 < length l)%nat by (destruct l; [congruence|cbn; lia]).
  destruct (Nat.even (length l)) eqn:E.
  - right. apply Nat.even_spec in E. destruct E as (h & Hh). exists (h - 1)%nat. split; [lia|].
    assert (HH : (length l / 2 = h)%nat) by (rewrite Hh, Nat.mul_comm; now apply Nat.div_mul). rewrite HH.
    replace (S (h - 1)) with h by lia. reflexivity.
  - left. rewrite <- Nat.negb_odd in E. apply negb_false_iff in E. apply Nat.odd_spec in E. destruct E as (h & Hh).
    exists h. split; [auto|].
    assert (HH : (length l / 2 = h)%nat).
    { rewrite Hh. symmetry. apply (Nat.div_unique _ 2 h 1); lia. }
    now rewrite HH.
Qed.

Lemma ascending_sorted : forall l, ascending l -> sorted l.
Proof.
  intros l H i j Hij Hj. induction Hij as [|j Hij IH]; [lra|].
  apply Rle_trans with (nth j l 0); [apply IH; lia|apply H; lia].
Qed.

Lemma median_unique : forall l m m', median_of l m -> median_of l m' -> m = m'.
Proof.
  intros l m m' (s & P & A & H) (s' & P' & A' & H').
  assert (s = s').
  { apply sorted_perm_eq; auto using ascending_sorted. rewrite P. now symmetry. }
  subst s'. destruct H as [(h & L & ->)|(h & L & ->)], H' as [(h' & L' & ->)|(h' & L' & ->)]; try lia.
  - now replace h' with h by lia.
  - now replace h' with h by lia.
Qed.

Lemma median_bounds : forall l m a b, median_of l m -> (forall x, In x l -> a <= x <= b) -> a <= m <= b.
Proof.
  intros l m a b (s & P & A & H) HB. pose proof (Permutation_length P) as L.
  assert (N : forall i, (i < length l)%nat -> a <= nth i s 0 <= b).
  { intros i Hi. apply HB. apply (Permutation_in _ P). apply nth_In. lia. }
  destruct H as [(h & Lh & ->)|(h & Lh & ->)].
  - apply N. lia.
  - pose proof (N h ltac:(lia)). pose proof (N (S h) ltac:(lia)). lra.
Qed.

Lemma rsum_median_two : forall (l : list R) m m', median_of l m -> median_of (map (fun x => 1 - x) l) m' -> m + m' = 1.
Proof.
  intros l m m' (s & P & A & H) Hm'. pose proof (Permutation_length P) as L.
  set (t := rev (map (fun x => 1 - x) s)).
  assert (Lt : length t = length l) by (unfold t; now rewrite rev_length, map_length).
  assert (N : forall i, (i < length l)%nat -> nth i t 0 = 1 - nth (length l - S i) s 0).
  { intros i Hi. unfold t. rewrite rev_nth by (rewrite map_length; lia). rewrite map_length, L.
    rewrite (nth_indep _ 0 (1 - 0)) by (rewrite map_length; lia). now rewrite (map_nth (fun x => 1 - x)). }
  assert (AT : ascending t).
  { intros i Hi. rewrite !N by lia. assert (nth (length l - S (S i)) s 0 <= nth (S (length l - S (S i))) s 0) by (apply A; lia).
    replace (S (length l - S (S i))) with (length l - S i)%nat in H0 by lia. lra. }
  assert (PT : Permutation t (map (fun x => 1 - x) l)).
  { unfold t. rewrite <- Permutation_rev. now apply Permutation_map. }
  destruct H as [(h & Lh & ->)|(h & Lh & ->)].
  - assert (M : median_of (map (fun x => 1 - x) l) (nth h t 0)).
    { exists t. split; [auto|]. split; [auto|]. left. exists h. now rewrite map_length. }
    rewrite (median_unique _ _ _ Hm' M), N by lia. replace (length l - S h)%nat with h by lia. lra.
  - assert (M : median_of (map (fun x => 1 - x) l) ((nth h t 0 + nth (S h) t 0) / 2)).
    { exists t. split; [auto|]. split; [auto|]. right. exists h. now rewrite map_length. }
    rewrite (median_unique _ _ _ Hm' M), !N by lia. replace (length l - S h)%nat with (S h) by lia.
    replace (length l - S (S h))%nat with h by lia. lra.
Qed.

Lemma medians_val : forall n answers, answers <> [] -> medians n answers (map (fun j => median (col j answers)) (seq 0 n)).
Proof.
  intros n answers Ha. split; [rewrite map_length, seq_length; auto|]. intros c Hc. rewrite nth_map_seq by auto.
  apply median_spec. unfold col. destruct answers; [congruence|discriminate].
Qed.

Lemma list_nth_eq : forall (a b : list R), length a = length b ->
  (forall i, (i < length a)%nat -> nth i a 0 = nth i b 0) -> a = b.
Proof. intros. now apply (nth_ext _ _ 0 0). Qed.

Lemma medians_unique : forall n answers m m', medians n answers m -> medians n answers m' -> m = m'.
Proof.
  intros n answers m m' [L H] [L' H']. apply list_nth_eq; [congruence|]. intros i Hi.
  apply (median_unique _ _ _ (H i ltac:(lia)) (H' i ltac:(lia))).
Qed.

Lemma medians_nonneg : forall n answers m, distributions n answers -> medians n answers m -> Forall (fun x => 0 <= x) m.
Proof.
  intros n answers m HD [L H]. apply Forall_forall. intros x Hx. apply (In_nth _ _ 0) in Hx. destruct Hx as (c & Hc & <-).
  apply (median_bounds _ _ 0 1 (H c ltac:(lia))). intros x Hx. apply in_map_iff in Hx. destruct Hx as (a & <- & Ha).
  unfold distributions in HD. rewrite Forall_forall in HD. destruct (HD a Ha) as [La Da].
  apply (distribution_le_1 a); auto. apply nth_In. lia.
Qed.

Lemma median_strategy : forall {Q} argsort distance (b : base Q) p q k X preds answers m, ep_combination p = CMedian ->
  length (eq_quantifiers q) = ep_n p -> (0 < ep_n p)%nat ->
  members_answer b q X preds answers -> distributions (length (eq_classes q)) answers ->
  medians (length (eq_classes q)) answers m ->
  (rsum m = 0 -> EoQ_predict argsort distance b p q k X preds = NotANumber) /\
  (rsum m <> 0 -> EoQ_predict argsort distance b p q k X preds = Val (Vector (vdiv m (rsum m))) /\
                  distribution_over (length (eq_classes q)) (vdiv m (rsum m))).
Proof.
  intros Q argsort distance b p q k X preds answers m HC HN Hn HM HD Hm. unfold EoQ_predict.
  rewrite (members_prevalences _ _ _ _ _ answers HN HM (arrays_distributions _ _ HD)). cbn [obind].
  unfold combine_members. rewrite HC. destruct HM as (HL & _).
  assert (Hr : answers <> []) by (intros ->; cbn in HL; lia).
  assert (E : median_of_rows (length (eq_classes q)) answers = normalised m).
  { unfold median_of_rows. destruct answers as [|a l]; [congruence|]. f_equal.
    refine (medians_unique _ _ _ _ (medians_val _ _ Hr) Hm). }
  rewrite E. unfold normalised. split; intros H.
  - rewrite H. destruct (Req_EM_T 0 0); [reflexivity|congruence].
  - destruct (Req_EM_T (rsum m) 0); [congruence|]. split; [reflexivity|].
    pose proof (medians_nonneg _ _ _ HD Hm) as NN.
    split; [rewrite vdiv_length; apply Hm|]. apply vdiv_distribution; auto.
    pose proof (rsum_nonneg m NN). lra.
Qed.

Lemma median_two : forall {Q} argsort distance (b : base Q) p q k X preds answers m, ep_combination p = CMedian ->
  length (eq_quantifiers q) = ep_n p -> (0 < ep_n p)%nat -> length (eq_classes q) = 2%nat ->
  members_answer b q X preds answers -> distributions 2 answers -> medians 2 answers m ->
  EoQ_predict argsort distance b p q k X preds = Val (Vector m) /\ distribution_over 2 m.
Proof.
  intros Q argsort distance b p q k X preds answers m HC HN Hn H2 HM HD Hm.
  assert (S1 : rsum m = 1).
  { destruct Hm as [L H]. destruct m as [|a [|a' [|]]]; try discriminate. cbn.
    pose proof (H 0%nat ltac:(lia)) as H0. pose proof (H 1%nat ltac:(lia)) as H1. cbn in H0, H1.
    assert (E : map (fun a => nth 1 a 0) answers = map (fun x => 1 - x) (map (fun a => nth 0 a 0) answers)).
    { rewrite map_map. apply map_ext_in. intros r Hr. unfold distributions in HD. rewrite Forall_forall in HD.
      destruct (HD r Hr) as [Lr [_ Sr]]. destruct r as [|u [|v [|]]]; try discriminate. cbn in Sr |- *. lra. }
    rewrite E in H1. pose proof (rsum_median_two _ _ _ H0 H1). lra. }
  rewrite <- H2 in HD, Hm.
  destruct (median_strategy argsort distance b p q k X preds answers m HC HN Hn HM HD Hm) as [_ M].
  destruct (M ltac:(lra)) as [E D]. rewrite S1, vdiv_1 in E, D. rewrite H2 in D. auto.
Qed.
