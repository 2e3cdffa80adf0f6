(** * Ensembles of quantifiers: the strategies that select members. *)

From Coq Require Import Reals List ZArith Lra Lia Permutation Bool.
From Verif Require Import Num Spec L_Num M_Baselines M_Metrics L_Metrics M_Bags Spec_Bags L_Bags M_Match Spec_Match
  L_Match L_Match2 L_Match3 L_Match6 L_Match7 L_Match12 M_Reg Spec_Reg L_Reg L_Reg2 M_Eoq Spec_Eoq L_Eoq.
Import ListNotations.
Open Scope R_scope.

(** ** Selection *)

Lemma in_firstn_nth : forall {A} (l : list A) k x d, In x (firstn k l) ->
  exists a, (a < k)%nat /\ (a < length l)%nat /\ nth a l d = x.
Proof.
  intros A l k x d H. apply (In_nth _ _ d) in H. destruct H as (a & Ha & E). rewrite firstn_length in Ha.
  exists a. repeat split; try lia. rewrite <- E. symmetry. rewrite <- (firstn_skipn k l) at 2.
  rewrite app_nth1; [auto|]. rewrite firstn_length. lia.
Qed.

Lemma in_skipn_nth : forall {A} (l : list A) k x d, In x (skipn k l) ->
  exists a, (k <= a)%nat /\ (a < length l)%nat /\ nth a l d = x.
Proof.
  intros A l k x d H. apply (In_nth _ _ d) in H. destruct H as (a & Ha & E). rewrite skipn_length in Ha.
  exists (k + a)%nat. repeat split; try lia. rewrite <- E. rewrite <- (firstn_skipn k l) at 1.
  rewrite app_nth2; rewrite firstn_length; [|lia]. f_equal. lia.
Qed.

Lemma NoDup_firstn : forall {A} (l : list A) k, NoDup l -> NoDup (firstn k l).
Proof.
  intros A l k H. rewrite <- (firstn_skipn k l) in H. revert H. generalize (skipn k l). intros t H.
  induction (firstn k l) as [|a u IH]; [constructor|]. cbn in H. inversion H; subst. constructor; auto.
  intros I. apply H2. apply in_or_app. now left.
Qed.

Lemma closest_firstn : forall argsort ds k, sorts argsort ->
  closest (fun i => nth i ds 0) (length ds) (Nat.min (length ds) k) (firstn k (argsort ds)).
Proof.
  intros argsort ds k HS. destruct (HS ds) as [P A]. pose proof (Permutation_length P) as L. rewrite seq_length in L.
  assert (ND : NoDup (argsort ds)) by (apply (Permutation_NoDup (Permutation_sym P)), seq_NoDup).
  split; [now apply NoDup_firstn|]. split; [rewrite firstn_length; lia|]. split.
  - apply Forall_forall. intros i Hi. destruct (in_firstn_nth _ _ _ 0%nat Hi) as (a & _ & Ha & <-).
    apply (nth_In _ 0%nat) in Ha. apply (Permutation_in _ P) in Ha. apply in_seq in Ha. lia.
  - intros i j Hi Hj NJ. destruct (in_firstn_nth _ _ _ 0%nat Hi) as (a & Ka & Ha & <-).
    assert (J : In j (argsort ds)) by (apply (Permutation_in _ (Permutation_sym P)); apply in_seq; lia).
    rewrite <- (firstn_skipn k (argsort ds)) in J. apply in_app_or in J. destruct J as [J|J]; [contradiction|].
    destruct (in_skipn_nth _ _ _ 0%nat J) as (b & Kb & Hb & <-).
    pose proof (ascending_sorted _ A a b ltac:(lia) ltac:(rewrite map_length; lia)) as O.
    set (g := fun i => nth i ds 0) in *. rewrite !(nth_indep (map g _) 0 (g 0%nat)) in O by (rewrite map_length; lia).
    now rewrite !map_nth in O.
Qed.

Lemma closest_ext : forall d d' n k sel, (forall i, (i < n)%nat -> d i = d' i) -> closest d n k sel -> closest d' n k sel.
Proof.
  intros d d' n k sel E (ND & L & F & H). split; [auto|]. split; [auto|]. split; [auto|].
  intros i j Hi Hj NJ. assert (Hi' : (i < n)%nat) by (rewrite Forall_forall in F; auto).
  rewrite <- !E by auto. now apply H.
Qed.

Lemma n_selected_pos : forall p, 1 / 2 < INR (ep_n p) * ep_percentage p -> (1 <= n_selected p)%Z.
Proof.
  intros p H. unfold n_selected. pose proof (Rabs_le_both _ _ (round_even_near (INR (ep_n p) * ep_percentage p))) as N.
  apply Z.lt_pred_le. apply lt_IZR. cbn. lra.
Qed.

Lemma n_selected_near : forall p, 1 / 2 < INR (ep_n p) * ep_percentage p ->
  Rabs (INR (Z.to_nat (n_selected p)) - INR (ep_n p) * ep_percentage p) <= 1 / 2.
Proof.
  intros p H. pose proof (n_selected_pos p H) as N. rewrite INR_IZR_INZ, Z2Nat.id by lia. apply round_even_near.
Qed.

Lemma n_selected_none : forall p, 0 <= INR (ep_n p) * ep_percentage p <= 1 / 2 -> n_selected p = 0%Z.
Proof.
  intros p H. pose proof (round_even_nonneg (INR (ep_n p) * ep_percentage p) ltac:(lra)) as N.
  fold (n_selected p) in N. destruct (Req_EM_T (INR (ep_n p) * ep_percentage p) (1 / 2)) as [E|E].
  - unfold n_selected. rewrite E. unfold round_even. replace (1 / 2 + 1 / 2) with (IZR 1) by (cbn; lra).
    assert (I : Int_part (IZR 1) = 1%Z).
    { pose proof (Int_part_bounds (IZR 1)) as B. destruct B as [B1 B2]. apply le_IZR in B1.
      assert (0 < IZR (Int_part 1)) by lra. apply (lt_IZR 0) in H0. lia. }
    rewrite I. destruct (Req_EM_T 1 1); [reflexivity|congruence].
  - pose proof (Rabs_le_both _ _ (round_even_near (INR (ep_n p) * ep_percentage p))) as B.
    fold (n_selected p) in B. assert (IZR (n_selected p) < IZR 1) by (cbn; lra). apply lt_IZR in H0. lia.
Qed.

Lemma slice_firstn : forall {A} z (l : list A), (0 <= z)%Z -> slice z l = firstn (Z.to_nat z) l.
Proof. intros A z l H. unfold slice. destruct (z <? 0)%Z eqn:E; [apply Z.ltb_lt in E; lia|reflexivity]. Qed.

Lemma rows_at_distributions : forall n answers sel, distributions n answers ->
  Forall (fun i => (i < length answers)%nat) sel -> distributions n (rows_at sel answers).
Proof.
  intros n answers sel HD HF. unfold distributions, rows_at in *. apply Forall_forall. intros r Hr.
  apply in_map_iff in Hr. destruct Hr as (i & <- & Hi). rewrite Forall_forall in HF, HD. apply HD. apply nth_In. auto.
Qed.

Lemma selected_mean : forall d n answers k sel, distributions n answers -> (0 < length answers)%nat -> (1 <= k)%nat ->
  closest d (length answers) (Nat.min (length answers) k) sel ->
  mean_of_rows n (rows_at sel answers) = Val (col_means n (rows_at sel answers)) /\
  average_answer n answers sel (col_means n (rows_at sel answers)) /\
  distribution_over n (col_means n (rows_at sel answers)).
Proof.
  intros d n answers k sel HD Hn Hk (ND & L & F & _).
  assert (NE : rows_at sel answers <> []).
  { unfold rows_at. intros E. apply map_eq_nil in E. subst sel. cbn in L. lia. }
  destruct (mean_of_rows_val n _ NE (rows_at_distributions _ _ _ HD F)) as (E & D). split; [auto|]. split; [|auto].
  apply average_of_rows.
Qed.

(** ** Similar prevalences *)

Lemma mae_mean : forall n a b, (0 < n)%nat -> length a = n -> length b = n ->
  mean_absolute_error (vec a) (vec b) = Val (mae n b a).
Proof.
  intros n a b Hn La Lb. rewrite mae_val; [|congruence|destruct a; [cbn in La; lia|discriminate]].
  unfold mae. rewrite La. f_equal. f_equal. unfold dsum. rewrite La. reflexivity.
Qed.

Lemma prevalence_selected_val : forall argsort p n answers, sorts argsort -> (0 < n)%nat -> arrays n answers ->
  (0 <= n_selected p)%Z ->
  exists ds, prevalence_selected argsort p n answers = Val (firstn (Z.to_nat (n_selected p)) (argsort ds)) /\
    length ds = length answers /\
    forall i, (i < length answers)%nat -> nth i ds 0 = mae n (nth i answers []) (col_means n answers).
Proof.
  intros argsort p n answers HS Hn HA HZ. unfold prevalence_selected.
  exists (map (fun r => mae n r (col_means n answers)) answers). split; [|split].
  - rewrite (collect_val _ (fun r => mae n r (col_means n answers))).
    + cbn. now rewrite slice_firstn.
    + intros r Hr. apply mae_mean; auto; [apply col_means_length|]. unfold arrays in HA. rewrite Forall_forall in HA. auto.
  - apply map_length.
  - intros i Hi. rewrite (nth_indep _ 0 (mae n [] (col_means n answers))) by (now rewrite map_length).
    now rewrite (map_nth (fun r => mae n r (col_means n answers))).
Qed.

Lemma classes_pos : forall n answers, distributions n answers -> (0 < length answers)%nat -> (0 < n)%nat.
Proof.
  intros n answers HD HL. destruct answers as [|a l]; [cbn in HL; lia|]. apply Forall_inv in HD.
  destruct HD as [L [_ S]]. destruct n; [|lia]. destruct a; [cbn in S; lra|discriminate].
Qed.

Lemma prevalence_strategy : forall {Q} argsort distance (b : base Q) p q k X preds answers avg, sorts argsort ->
  ep_combination p = PrevalenceSimilarity ->
  length (eq_quantifiers q) = ep_n p -> 1 / 2 < INR (ep_n p) * ep_percentage p ->
  members_answer b q X preds answers -> distributions (length (eq_classes q)) answers ->
  average_answer (length (eq_classes q)) answers (seq 0 (ep_n p)) avg ->
  exists n_sel sel r, EoQ_predict argsort distance b p q k X preds = Val (Vector r) /\
    Rabs (INR n_sel - INR (ep_n p) * ep_percentage p) <= 1 / 2 /\ (1 <= n_sel)%nat /\
    closest (fun i => mae (length (eq_classes q)) (nth i answers []) avg) (ep_n p) (Nat.min (ep_n p) n_sel) sel /\
    average_answer (length (eq_classes q)) answers sel r /\ distribution_over (length (eq_classes q)) r.
Proof.
  intros Q argsort distance b p q k X preds answers avg HS HC HN Hp HM HD HA. unfold EoQ_predict.
  rewrite (members_prevalences _ _ _ _ _ answers HN HM (arrays_distributions _ _ HD)). cbn [obind].
  unfold combine_members. rewrite HC. destruct HM as (HL & _).
  assert (Hn : (0 < ep_n p)%nat).
  { destruct (Nat.eq_dec (ep_n p) 0) as [Z|Z]; [|lia]. rewrite Z in Hp. change (INR 0) with 0 in Hp. lra. }
  assert (Hc : (0 < length (eq_classes q))%nat) by (apply (classes_pos _ answers HD); lia).
  set (n := length (eq_classes q)) in *. pose proof (n_selected_pos p Hp) as Np.
  destruct (prevalence_selected_val argsort p n answers HS Hc (arrays_distributions _ _ HD) ltac:(lia)) as (ds & E & LD & ND).
  rewrite E. cbn [obind]. set (sel := firstn (Z.to_nat (n_selected p)) (argsort ds)).
  assert (EA : col_means n answers = avg).
  { destruct HA as [L A]. apply list_nth_eq; [now rewrite col_means_length|]. intros i Hi. rewrite col_means_length in Hi.
    destruct (average_all n answers) as [_ A']. rewrite A', A by auto. now rewrite HL, HN. }
  assert (C : closest (fun i => mae n (nth i answers []) avg) (length answers) (Nat.min (length answers) (Z.to_nat (n_selected p))) sel).
  { rewrite <- LD. apply (closest_ext (fun i => nth i ds 0)).
    - intros i Hi. rewrite <- EA. apply ND. lia.
    - now apply closest_firstn. }
  destruct (selected_mean _ n answers (Z.to_nat (n_selected p)) sel HD ltac:(lia) ltac:(lia) C) as (E' & A' & D').
  rewrite E'. cbn. exists (Z.to_nat (n_selected p)), sel, (col_means n (rows_at sel answers)).
  rewrite HL, HN in C. repeat split; auto; try (apply n_selected_near; auto); try lia; try apply C; try apply A'; try apply D'.
Qed.

Lemma nothing_selected : forall {Q} argsort distance (b : base Q) p q k X preds answers, sorts argsort ->
  ep_combination p = PrevalenceSimilarity ->
  length (eq_quantifiers q) = ep_n p -> (0 < ep_n p)%nat -> 0 <= INR (ep_n p) * ep_percentage p <= 1 / 2 ->
  members_answer b q X preds answers -> distributions (length (eq_classes q)) answers ->
  EoQ_predict argsort distance b p q k X preds = NotANumber.
Proof.
  intros Q argsort distance b p q k X preds answers HS HC HN Hn Hp HM HD. unfold EoQ_predict.
  rewrite (members_prevalences _ _ _ _ _ answers HN HM (arrays_distributions _ _ HD)). cbn [obind].
  unfold combine_members. rewrite HC. destruct HM as (HL & _).
  assert (Hc : (0 < length (eq_classes q))%nat) by (apply (classes_pos _ answers HD); lia).
  pose proof (n_selected_none p Hp) as N0.
  destruct (prevalence_selected_val argsort p _ answers HS Hc (arrays_distributions _ _ HD) ltac:(lia)) as (ds & E & _).
  rewrite E, N0. reflexivity.
Qed.
