(** * Proofs about fitting: EnsembleOfClassifiers, the tree classifier, AC. *)

From Coq Require Import Reals List ZArith Bool Lia Lra Permutation Sorted.
From Verif Require Import Num Spec M_Baselines M_Base M_Ordinal M_Estimators M_Optim M_History M_Fit Spec_Ordinal Spec_Fit
  L_Num L_Baselines L_Ordinal2 L_Ordinal4 L_Fit L_History2.
Import ListNotations.
Open Scope R_scope.

Local Hint Resolve raises_err raises_nan : core.

Lemma Forall2_len {A B : Type} (P : A -> B -> Prop) l l' : Forall2 P l l' -> length l = length l'.
Proof. induction 1; cbn; congruence. Qed.

Lemma Forall2_of_nth {A B : Type} (P : A -> B -> Prop) : forall l l', length l = length l' ->
  (forall i a, nth_error l i = Some a -> exists b, nth_error l' i = Some b /\ P a b) -> Forall2 P l l'.
Proof.
  induction l as [|a l IH]; intros [|b l'] L H; try discriminate; constructor.
  - destruct (H O a eq_refl) as (b' & [= <-] & W). exact W.
  - apply IH; [cbn in L; lia|]. intros i a' Hi. exact (H (S i) a' Hi).
Qed.

(** ** EnsembleOfClassifiers *)
Section Ensemble.
Context {X Pm Ob : Type} (E : estimator_class X Pm Ob) (accepted : list X -> list Z -> bool).

Lemma EoC_unchanged in_process order x y bags s store : eo_classes s = None -> eo_estimators s = None ->
  eo_base s = None \/ accepted x y = false ->
  EoC_object_fit E accepted in_process order x y bags s store = (store, s, Err ValueError).
Proof.
  intros Hc He H. unfold EoC_object_fit. rewrite Hc, He. destruct (eo_base s) as [b|]; [|reflexivity].
  destruct H as [H| ->]; [discriminate|reflexivity].
Qed.

Lemma EoC_failed in_process order x y bags s store store' s' r : eo_classes s = None -> eo_estimators s = None ->
  eo_base s <> None -> accepted x y = true ->
  EoC_object_fit E accepted in_process order x y bags s store = (store', s', r) -> raises r ->
  eo_classes s' = None /\ eo_estimators s' = Some (repeat None (length bags)).
Proof.
  intros Hc He Hb Ha H Hr. unfold EoC_object_fit in H. rewrite Hc, He, Ha in H. destruct (eo_base s) as [b|]; [|easy].
  destruct (run_jobs _ order store) as [st res]. destruct res; injection H as <- <- <-; cbn; auto.
  exfalso. eapply raises_not_val, Hr.
Qed.

Lemma broken_again n s s' : eo_estimators s = Some (repeat None n) -> fits_again E accepted s s' ->
  eo_estimators s' = Some (repeat None n).
Proof.
  intros H F. induction F as [|s s1 s2 ip order x y bags st st' r F IH Hf]; [exact H|].
  unfold EoC_object_fit in Hf. rewrite (IH H) in Hf. destruct (eo_classes s1); injection Hf as <- <- <-; cbn; auto.
Qed.

Theorem EoC_retry in_process order x y bags s store store' s' r s'' : eo_classes s = None -> eo_estimators s = None ->
  eo_base s <> None -> accepted x y = true ->
  EoC_object_fit E accepted in_process order x y bags s store = (store', s', r) -> raises r ->
  fits_again E accepted s' s'' ->
  (forall ip2 order2 x2 y2 bags2 st, exists s3, EoC_object_fit E accepted ip2 order2 x2 y2 bags2 s'' st = (st, s3, Val tt)) /\
  forall st t, raises (EoC_predict E st s'' t).
Proof.
  intros Hc He Hb Ha H Hr F. destruct (EoC_failed _ _ _ _ _ _ _ _ _ _ Hc He Hb Ha H Hr) as (_ & N).
  pose proof (broken_again _ _ _ N F) as B. split.
  - intros. unfold EoC_object_fit. rewrite B. destruct (eo_classes s''); eauto.
  - intros st t. unfold EoC_predict. rewrite B. destruct (eo_classes s'') as [cl|]; [|auto].
    unfold member_labels at 1. destruct (length bags); cbn; auto.
Qed.

(** What the members are after a successful fit. *)
Lemma run_jobs_answers {A : Type} (job : nat -> list Ob -> list Ob * out A) (P : nat -> A -> Prop) order :
  (forall i st st' a, job i st = (st', Val a) -> P i a) -> forall store store' answers, run_jobs job order store = (store', Val answers) ->
  map fst answers = order /\ Forall (fun p => P (fst p) (snd p)) answers.
Proof.
  intros HP. induction order as [|i order IH]; intros store store' answers; cbn [run_jobs].
  - intros [= <- <-]. auto.
  - destruct (job i store) as [st [a|er|]] eqn:J; [|discriminate..].
    destruct (run_jobs job order st) as [st2 [l|er|]] eqn:R; cbn; [|discriminate..]. intros [= <- <-].
    destruct (IH _ _ _ R) as (Hm & Hf). cbn. split; [congruence|]. constructor; [cbn; eapply HP, J|exact Hf].
Qed.

Lemma answer_of_In {A : Type} i (answers : list (nat * A)) : In i (map fst answers) -> exists a, answer_of i answers = Some a /\ In (i, a) answers.
Proof.
  induction answers as [|[j a] l IH]; [easy|]. cbn. destruct (Nat.eqb_spec j i) as [->|D].
  - intros _. exists a. auto.
  - intros [H|H]; [congruence|]. destruct (IH H) as (b & Hb & I). eauto.
Qed.

Lemma pick_selected {A : Type} (l : list A) bag : forallb (fun i => Nat.ltb i (length l)) bag = true -> selected l bag (pick l bag).
Proof using.
  intros H. rewrite forallb_forall in H. unfold selected, pick. induction bag as [|i bag IH]; [reflexivity|]. cbn [flat_map map].
  destruct (nth_error l i) as [v|] eqn:Hv.
  - cbn [app map]. f_equal. apply IH. intros j Hj. apply H. now right.
  - apply nth_error_None in Hv. specialize (H i (or_introl eq_refl)). apply Nat.ltb_lt in H. lia.
Qed.

Lemma fit_member_in b x y bag st st' a : fit_member E true b x y bag st = (st', Val a) ->
  a = b /\ exists o o', nth_error st b = Some o /\ trained_with E x y bag o o' /\ st' = set_nth b o' st.
Proof.
  unfold fit_member. destruct (nth_error st b) as [o|] eqn:Hb; [|discriminate].
  unfold pick_checked. destruct (forallb _ bag) eqn:P1; [|discriminate]. cbn [obind]. destruct (forallb _ bag) eqn:P2 in |- *; [|discriminate]. cbn [obind].
  apply pick_selected in P1, P2.
  destruct (ec_fit E (pick x bag) (pick y bag) o) as [o' [[]|er|]] eqn:F; cbn; [|discriminate..].
  intros [= <- <-]. split; [reflexivity|]. exists o, o'. split; [auto|]. split; [|reflexivity]. now exists (pick x bag), (pick y bag).
Qed.

Lemma fit_member_out b x y bag st st' a : fit_member E false b x y bag st = (st', Val a) ->
  exists o o', nth_error st b = Some o /\ trained_with E x y bag o o' /\ st' = st ++ [o'] /\ a = length st.
Proof.
  unfold fit_member. destruct (nth_error st b) as [o|] eqn:Hb; [|discriminate].
  unfold pick_checked. destruct (forallb _ bag) eqn:P1; [|discriminate]. cbn [obind]. destruct (forallb _ bag) eqn:P2 in |- *; [|discriminate]. cbn [obind].
  apply pick_selected in P1, P2.
  destruct (ec_fit E (pick x bag) (pick y bag) o) as [o' [[]|er|]] eqn:F; cbn; [|discriminate..].
  intros [= <- <-]. exists o, o'. split; [auto|]. split; [|auto]. now exists (pick x bag), (pick y bag).
Qed.

Lemma EoC_fit_val in_process order x y bags s store store' s' : eo_classes s = None -> eo_estimators s = None ->
  EoC_object_fit E accepted in_process order x y bags s store = (store', s', Val tt) ->
  exists b answers, eo_base s = Some b /\ accepted x y = true /\
    run_jobs (fun i => fit_member E in_process b x y (nth i bags [])) order store = (store', Val answers) /\
    eo_base s' = Some b /\ eo_classes s' = Some (np_unique y) /\ eo_n s' = length bags /\
    eo_estimators s' = Some (map (fun i => answer_of i answers) (seq 0 (length bags))).
Proof.
  intros Hc He H. unfold EoC_object_fit in H. rewrite Hc, He in H. destruct (eo_base s) as [b|]; [|discriminate].
  destruct (accepted x y); [|discriminate].
  destruct (run_jobs _ order store) as [st [answers|er|]] eqn:R; [|discriminate..]. injection H as <- <-. exists b, answers. cbn. auto 8.
Qed.

Lemma collect_map_val {A B : Type} (f : A -> out B) l l' : Forall2 (fun a b => f a = Val b) l l' -> collect (map f l) = Val l'.
Proof. induction 1; [reflexivity|]. cbn. rewrite H, IHForall2. reflexivity. Qed.

(** The general shape of predict. *)
Lemma EoC_predict_columns store s classes estimators n columns len t : eo_classes s = Some classes ->
  eo_estimators s = Some estimators -> eo_n s = n -> (0 < n)%nat -> length columns = n ->
  (forall i, (i < n)%nat -> member_labels E store estimators t i = Val (nth i columns [])) ->
  Forall (fun c => length c = len) columns ->
  EoC_predict E store s t = Val (rows_of_columns len columns).
Proof.
  intros Hc He Hn P L M F. unfold EoC_predict. rewrite Hc, He, Hn, M by lia.
  destruct columns as [|c0 cs]; [cbn in L; lia|]. cbn [nth obind].
  rewrite (collect_map_val _ _ cs).
  2:{ assert (G : forall l b, (forall i, (i < length l)%nat -> member_labels E store estimators t (b + i) = Val (nth i l [])) ->
         Forall2 (fun i c => member_labels E store estimators t i = Val c) (seq b (length l)) l).
      { clear. induction l as [|c l IH]; intros b M; [constructor|]. cbn [length seq]. constructor.
        - rewrite <- (Nat.add_0_r b). rewrite M by (cbn; lia). reflexivity.
        - apply IH. intros i Hi. replace (S b + i)%nat with (b + S i)%nat by lia. rewrite M by (cbn; lia). reflexivity. }
      cbn [length] in L. replace (n - 1)%nat with (length cs) by lia.
      apply G. intros i Hi. rewrite (M (1 + i)%nat) by lia. reflexivity. }
  cbn [obind]. inversion F as [|? ? F0 F1]; subst. rewrite (proj2 (forallb_forall _ _)).
  - reflexivity.
  - intros c Hin. rewrite Forall_forall in F1. apply Nat.eqb_eq. rewrite (F1 c Hin). reflexivity.
Qed.

(** In the same process every member is the base estimator itself. *)
Theorem EoC_same_process order x y bags b store store' s' base_original : bags <> [] -> nth_error store b = Some base_original ->
  schedule (length bags) order ->
  EoC_object_fit E accepted true order x y bags (EoC_new (Some b)) store = (store', s', Val tt) ->
  exists o final, nth_error store' b = Some final /\
    trained_with E x y (nth (last order O) bags []) o final /\
    forall t labels, ec_predict E final t = Val labels ->
      EoC_predict E store' s' t = Val (map (fun v => repeat v (length bags)) labels).
Proof.
  intros Hb Ho Hs H. destruct (EoC_fit_val true order x y bags (EoC_new (Some b)) store store' s' eq_refl eq_refl H) as (b' & answers & B & _ & R & _ & C & N & Es).
  injection B as <-.
  assert (NE : order <> []).
  { intros ->. apply Permutation_nil in Hs. destruct bags; [easy|discriminate]. }
  assert (last_trained : forall order store, order <> [] -> nth_error store b <> None -> forall store' answers,
    run_jobs (fun i => fit_member E true b x y (nth i bags [])) order store = (store', Val answers) ->
    exists o final, nth_error store' b = Some final /\
      trained_with E x y (nth (last order O) bags []) o final).
  { clear. induction order as [|i order IH]; intros store NE Hn store' answers; [easy|]. cbn [run_jobs].
    destruct (fit_member E true b x y (nth i bags []) store) as [st [a|er|]] eqn:J; [|discriminate..].
    destruct (fit_member_in _ _ _ _ _ _ _ J) as (-> & o & o' & Hob & F & ->).
    destruct (run_jobs _ order (set_nth b o' store)) as [st2 [l|er|]] eqn:R; cbn [omap obind]; [|discriminate..]. intros [= <- <-].
    assert (Lb : (b < length store)%nat) by (apply nth_error_Some; exact Hn).
    destruct order as [|j order].
    - cbn in R. injection R as <- <-. exists o, o'. split; [apply set_nth_same, Lb|exact F].
    - change (last (i :: j :: order) O) with (last (j :: order) O). eapply IH; [discriminate| |exact R].
      rewrite set_nth_same by exact Lb. discriminate. }
  destruct (last_trained order store NE ltac:(congruence) _ _ R) as (o & final & Hf & F).
  exists o, final. split; [exact Hf|]. split; [exact F|]. intros t labels Hl.
  destruct (run_jobs_answers _ (fun _ a => a = b) order (fun i st st' a J => proj1 (fit_member_in _ _ _ _ _ _ _ J)) _ _ _ R) as (Hm & Ha).
  rewrite EoC_predict_columns with (classes := np_unique y) (estimators := map (fun i => answer_of i answers) (seq 0 (length bags)))
    (n := length bags) (columns := repeat labels (length bags)) (len := length labels); auto.
  - f_equal. unfold rows_of_columns.
    transitivity (map (fun v => repeat v (length bags)) (map (fun j => nth j labels 0%Z) (seq 0 (length labels)))).
    + rewrite map_map. apply map_ext. intros e. generalize (length bags). induction n; cbn; congruence.
    + now rewrite seq_nth_map.
  - destruct bags; [easy|cbn; lia].
  - now rewrite repeat_length.
  - intros i Hi. unfold member_labels. rewrite nth_error_map, (nth_error_nth' _ O) by (rewrite seq_length; lia).
    rewrite seq_nth by lia. cbn [option_map plus].
    destruct (answer_of_In i answers) as (a & -> & I).
    { rewrite Hm. apply (Permutation_in _ (Permutation_sym Hs)), in_seq. lia. }
    rewrite Forall_forall in Ha. specialize (Ha _ I). cbn in Ha. subst a. rewrite Hf, Hl. f_equal.
    symmetry. clear - Hi. revert i Hi. induction (length bags); intros [|i] Hi; cbn; try lia; auto. apply IHn. lia.
  - apply Forall_forall. intros c Hc. apply repeat_spec in Hc. now subst.
Qed.

(** With copies, member i is a copy of the base estimator trained with bag i, whatever the order. *)
Lemma run_copies b x y bags original : forall order store store' answers, nth_error store b = Some original ->
  run_jobs (fun i => fit_member E false b x y (nth i bags [])) order store = (store', Val answers) ->
  (exists more, store' = store ++ more) /\ map fst answers = order /\
  Forall (fun p => exists t, nth_error store' (snd p) = Some t /\ (length store <= snd p)%nat /\
  trained_with E x y (nth (fst p) bags []) original t) answers.
Proof.
  induction order as [|i order IH]; intros store store' answers Hb; cbn [run_jobs].
  - intros [= <- <-]. split; [exists []; now rewrite app_nil_r|]. auto.
  - destruct (fit_member E false b x y (nth i bags []) store) as [st [a|er|]] eqn:J; [|discriminate..].
    destruct (fit_member_out _ _ _ _ _ _ _ J) as (o & o' & Hob & F & -> & ->). assert (o = original) by congruence. subst o.
    destruct (run_jobs _ order (store ++ [o'])) as [st2 [l|er|]] eqn:R; cbn [omap obind]; [|discriminate..]. intros [= <- <-].
    destruct (IH (store ++ [o']) st2 l) as ((more & ->) & Hm & Hf); [|exact R|].
    { rewrite nth_error_app1; [exact Hb|]. apply nth_error_Some. congruence. }
    split; [exists (o' :: more); now rewrite <- app_assoc|]. split; [cbn; congruence|]. constructor.
    + cbn [fst snd]. exists o'. split; [|split; [lia|exact F]].
      rewrite <- app_assoc, nth_error_app2, Nat.sub_diag by lia. reflexivity.
    + eapply Forall_impl; [|exact Hf]. intros p (t & H1 & H2 & H3). exists t. rewrite app_length in H2. cbn in H2.
      split; [exact H1|]. split; [lia|exact H3].
Qed.

Theorem EoC_other_processes order x y bags b store store' s' original : bags <> [] -> nth_error store b = Some original ->
  schedule (length bags) order ->
  EoC_object_fit E accepted false order x y bags (EoC_new (Some b)) store = (store', s', Val tt) ->
  exists more members, store' = store ++ more /\
  Forall2 (fun bag t => trained_with E x y bag original t) bags members /\
  forall t n columns, Forall2 (fun m column => ec_predict E m t = Val column /\ length column = n) members columns ->
      EoC_predict E store' s' t = Val (rows_of_columns n columns).
Proof.
  intros Hb Ho Hs H. destruct (EoC_fit_val false order x y bags (EoC_new (Some b)) store store' s' eq_refl eq_refl H) as (b' & answers & B & _ & R & _ & C & N & Es).
  injection B as <-. destruct (run_copies _ _ _ _ _ _ _ _ _ Ho R) as ((more & ->) & Hm & Hf).
  assert (Q : forall i, (i < length bags)%nat -> exists r m, answer_of i answers = Some r /\ nth_error (store ++ more) r = Some m /\
  trained_with E x y (nth i bags []) original m).
  { intros i Hi. destruct (answer_of_In i answers) as (r & Hr & I).
    { rewrite Hm. apply (Permutation_in _ (Permutation_sym Hs)), in_seq. lia. }
    rewrite Forall_forall in Hf. destruct (Hf _ I) as (m & H1 & _ & H2). cbn [fst snd] in *. exists r, m. auto. }
  destruct (Forall2_exists (fun i m => exists r, answer_of i answers = Some r /\ nth_error (store ++ more) r = Some m /\
  trained_with E x y (nth i bags []) original m) (seq 0 (length bags))) as (members & HM).
  { intros i Hi. apply in_seq in Hi. destruct (Q i ltac:(lia)) as (r & m & W). exists m, r. exact W. }
  exists more, members. split; [reflexivity|].
  assert (LM : length members = length bags) by (rewrite <- (Forall2_len _ _ _ HM), seq_length; reflexivity).
  assert (HN : forall i, (i < length bags)%nat -> exists r m, nth_error members i = Some m /\ answer_of i answers = Some r /\
  nth_error (store ++ more) r = Some m /\ trained_with E x y (nth i bags []) original m).
  { intros i Hi. destruct (Forall2_nth_error _ _ _ HM i i) as (m & Hi' & r & W).
    - rewrite (nth_error_nth' _ O) by (rewrite seq_length; lia). now rewrite seq_nth by lia.
    - exists r, m. split; [exact Hi'|exact W]. }
  split.
  - clear - HN LM. apply Forall2_of_nth; [lia|]. intros i bag Hi.
    assert (Li : (i < length bags)%nat) by (apply nth_error_Some; congruence).
    destruct (HN i Li) as (r & m & H1 & _ & _ & H2). exists m. split; [exact H1|].
    now rewrite <- (nth_error_nth _ _ [] Hi).
  - intros t n columns HC. assert (LC : length columns = length bags) by (rewrite <- (Forall2_len _ _ _ HC); exact LM).
    apply EoC_predict_columns with (classes := np_unique y) (estimators := map (fun i => answer_of i answers) (seq 0 (length bags)))
      (n := length bags); auto.
    + destruct bags; [easy|cbn; lia].
    + intros i Hi. unfold member_labels. rewrite nth_error_map, (nth_error_nth' _ O) by (rewrite seq_length; lia).
      rewrite seq_nth by lia. cbn [option_map plus]. destruct (HN i Hi) as (r & m & H1 & -> & -> & _).
      destruct (Forall2_nth_error _ _ _ HC i m H1) as (col & Hcol & -> & _). now rewrite (nth_error_nth _ _ [] Hcol).
    + clear - HC. induction HC as [|? ? ? ? [_ W] ? IH]; constructor; auto.
Qed.
End Ensemble.
