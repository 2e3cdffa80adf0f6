(** * Proofs about fitting: FrankAndHallClassifier. *)

From Coq Require Import Reals List ZArith Bool Lia Lra Permutation Sorted.
From Verif Require Import Num Spec M_Ordinal M_Estimators M_Fit Spec_Ordinal Spec_Fit L_Num L_Ordinal2 L_Ordinal4.
Import ListNotations.
Open Scope R_scope.

Lemma raises_err {A : Type} e : raises (@Err A e). Proof. intros a H. discriminate. Qed.
Lemma raises_nan {A : Type} : raises (@NotANumber A). Proof. intros a H. discriminate. Qed.
Lemma raises_not_val {A : Type} (a : A) : ~ raises (Val a). Proof. intros H. now apply (H a). Qed.
Local Hint Resolve raises_err raises_nan : core.

Lemma set_nth_last {A : Type} (l : list A) a b : set_nth (length l) b (l ++ [a]) = l ++ [b].
Proof. induction l; cbn; congruence. Qed.
Lemma set_nth_length {A : Type} (l : list A) i b : length (set_nth i b l) = length l.
Proof. revert i; induction l; intros [|i]; cbn; congruence. Qed.
Lemma set_nth_other {A : Type} (l : list A) i j b : i <> j -> nth_error (set_nth i b l) j = nth_error l j.
Proof. revert i j; induction l; intros [|i] [|j] H; cbn; try congruence. apply IHl. congruence. Qed.
Lemma set_nth_same {A : Type} (l : list A) i b : (i < length l)%nat -> nth_error (set_nth i b l) i = Some b.
Proof. revert i; induction l; intros [|i] H; cbn in *; try lia; auto. apply IHl. lia. Qed.

Section One.
Context {X Pm Ob : Type} (E : estimator_class X Pm Ob) (ps : option (list Pm)) (e : nat) (original : Ob) (x : list X).

Lemma trained_on_fun i yb t1 t2 : trained_on E ps i original x yb t1 -> trained_on E ps i original x yb t2 -> t1 = t2.
Proof.
  intros (r1 & H1 & F1) (r2 & H2 & F2). assert (r1 = r2).
  { unfold ready_for in *. destruct ps as [l|]; [|congruence]. destruct H1 as (p & ? & ?), H2 as (q & ? & ?). congruence. }
  congruence.
Qed.

Lemma fit_binary_ok yb i store t : nth_error store e = Some original -> trained_on E ps i original x yb t ->
  fit_binary E e ps x yb i store = (store ++ [t], Val (length store)).
Proof.
  intros He (r & Hr & F). unfold fit_binary. rewrite He. unfold ready_for in Hr.
  destruct ps as [l|].
  - destruct Hr as (p & Hp & Hs). rewrite Hp, Hs, F, set_nth_last. reflexivity.
  - subst r. rewrite F, set_nth_last. reflexivity.
Qed.

Lemma fit_binary_cases yb i store : nth_error store e = Some original ->
  (exists t, trained_on E ps i original x yb t) \/
  (exists t r, fit_binary E e ps x yb i store = (store ++ [t], r) /\ raises r).
Proof.
  intros He. unfold fit_binary, trained_on, ready_for. rewrite He.
  assert (F : forall ready, (exists t, ec_fit E x yb ready = (t, Val tt)) \/
    (exists t r, (let '(tr, r) := ec_fit E x yb ready in
      (set_nth (length store) tr (store ++ [original]), omap (fun _ => length store) r)) = (store ++ [t], r) /\ raises r)).
  { intros ready. destruct (ec_fit E x yb ready) as [t [[]|er|]]; [left; eauto|right; rewrite set_nth_last..].
    - exists t, (Err er). auto.
    - exists t, NotANumber. auto. }
  destruct ps as [l|].
  - destruct (nth_error l i) as [p|] eqn:Hp; [|right; exists original, (Err IndexError); auto].
    destruct (ec_set_params E p original) as [ready|er|] eqn:Hs.
    + destruct (F ready) as [(t & Ht)|H]; [left|right; exact H]. exists t, ready. eauto.
    + right. exists original, (Err er). auto.
    + right. exists original, NotANumber. auto.
  - destruct (F original) as [(t & Ht)|H]; [left; exists t, original; auto|right; exact H].
Qed.

Lemma run_binary_ok (yb : nat -> list Z) order : forall store ts, nth_error store e = Some original ->
  Forall2 (fun i t => trained_on E ps i original x (yb i) t) order ts ->
  run_jobs (fun i => fit_binary E e ps x (yb i) i) order store =
    (store ++ ts, Val (combine order (seq (length store) (length order)))).
Proof.
  induction order as [|i order IH]; intros store ts He H; inversion H; subst; cbn [run_jobs].
  - now rewrite app_nil_r.
  - rewrite fit_binary_ok with (t := y) by assumption.
    rewrite IH with (ts := l'); [| |assumption].
    + cbn [length seq combine omap obind]. rewrite app_length, Nat.add_1_r, <- app_assoc. reflexivity.
    + rewrite nth_error_app1; [assumption|]. apply nth_error_Some. congruence.
Qed.

Lemma run_binary_cases (yb : nat -> list Z) order : forall store, nth_error store e = Some original ->
  (exists ts, Forall2 (fun i t => trained_on E ps i original x (yb i) t) order ts) \/
  ((exists more r, run_jobs (fun i => fit_binary E e ps x (yb i) i) order store = (store ++ more, r) /\ raises r) /\
   exists i, In i order /\ forall t, ~ trained_on E ps i original x (yb i) t).
Proof.
  induction order as [|i order IH]; intros store He.
  - left. exists []. constructor.
  - destruct (fit_binary_cases (yb i) i store He) as [(t & Ht)|(t & r & Hr & Hn)].
    + assert (He' : nth_error (store ++ [t]) e = Some original)
        by (rewrite nth_error_app1; [assumption|apply nth_error_Some; congruence]).
      destruct (IH _ He') as [(ts & H)|((more & r & Hr & Hn) & j & Hj & Hf)].
      * left. exists (t :: ts). now constructor.
      * right. split; [|exists j; split; [now right|exact Hf]].
        exists (t :: more), (omap (cons (i, length store)) r). cbn [run_jobs].
        rewrite (fit_binary_ok _ _ _ t He Ht), Hr, <- app_assoc. split; [reflexivity|].
        destruct r; cbn; auto. exfalso. eapply raises_not_val, Hn.
    + right. split.
      * exists [t], (match r with Val _ => NotANumber | Err er => Err er | NotANumber => NotANumber end). cbn [run_jobs]. rewrite Hr.
        destruct r; auto. exfalso. eapply raises_not_val, Hn.
      * exists i. split; [now left|]. intros u Hu. rewrite (fit_binary_ok _ _ _ u He Hu) in Hr.
        injection Hr as _ <-. eapply raises_not_val, Hn.
Qed.
End One.

Lemma answer_of_combine order : forall b i, NoDup order -> In i order ->
  exists k, nth_error order k = Some i /\ answer_of i (combine order (seq b (length order))) = Some (b + k)%nat.
Proof.
  induction order as [|j order IH]; intros b i N H; [easy|]. inversion N; subst. cbn [length seq combine answer_of].
  destruct (Nat.eqb_spec j i) as [->|D].
  - exists O. split; [reflexivity|]. f_equal. lia.
  - destruct H as [H|H]; [congruence|]. destruct (IH (S b) i ltac:(assumption) H) as (k & Hk & Ha).
    exists (S k). split; [exact Hk|]. rewrite Ha. f_equal. lia.
Qed.

(** The labels of problem [i]. *)
Lemma firstn_sorted_le (l : list Z) : StronglySorted Z.lt l -> forall i c v, nth_error l i = Some c -> In v l ->
  (In v (firstn (S i) l) <-> (v <= c)%Z).
Proof.
  induction 1 as [|a l S IH F]; intros i c v Hi Hv; [destruct i; discriminate|].
  rewrite Forall_forall in F. destruct i as [|i].
  - cbn in Hi. injection Hi as <-. cbn. split.
    + intros [->|[]]. lia.
    + intros L. destruct Hv as [->|Hv]; [now left|]. specialize (F v Hv). lia.
  - cbn [nth_error] in Hi. cbn [firstn In]. destruct Hv as [->|Hv].
    + split; [|now left]. intros _. specialize (F c (nth_error_In _ _ Hi)). lia.
    + rewrite <- (IH i c v Hi Hv). split; [|now right]. intros [->|H]; [|exact H].
      specialize (F v Hv). lia.
Qed.

Lemma column_labels_up_to y m i c : FH_binarize (np_unique y) y = Val m -> nth_error (np_unique y) i = Some c ->
  (i < n_problems y)%nat -> column_labels i m = up_to c y.
Proof.
  intros Hm Hc Hi. unfold n_problems in Hi.
  assert (L : (3 <= length (np_unique y))%nat).
  { unfold FH_binarize in Hm. destruct (Nat.eqb_spec (length (np_unique y)) 2); [discriminate|lia]. }
  rewrite FH_binarize_spec in Hm by (auto; apply np_unique_NoDup). injection Hm as <-.
  unfold column_labels, up_to. rewrite map_map. apply map_ext_in. intros v Hv.
  rewrite (nth_indep _ _ ((fun i => if in_dec Z.eq_dec v (firstn (S i) (np_unique y)) then 1 else 0) O))
    by (rewrite map_length, seq_length; lia).
  rewrite (map_nth (fun i => if in_dec Z.eq_dec v (firstn (S i) (np_unique y)) then 1 else 0)), seq_nth by lia. cbn [plus].
  pose proof (firstn_sorted_le _ (np_unique_sorted y) i c v Hc (proj2 (np_unique_in v y) Hv)) as W.
  destruct (in_dec Z.eq_dec v (firstn (S i) (np_unique y))) as [I|I]; destruct (Z.leb_spec v c) as [Hl|Hl].
  - destruct (Req_EM_T 1 1); [reflexivity|lra].
  - apply W in I. lia.
  - exfalso. apply I, W, Hl.
  - destruct (Req_EM_T 0 1); [lra|reflexivity].
Qed.

Lemma binarize_cases y : length (np_unique y) <> 2%nat -> exists m, FH_binarize (np_unique y) y = Val m.
Proof. intros H. unfold FH_binarize. destruct (Nat.eqb_spec (length (np_unique y)) 2); [easy|]. eauto. Qed.

(** ** One fit *)
Section Fit.
Context {X Pm Ob : Type} (E : estimator_class X Pm Ob) (accepted : list X -> list Z -> bool).

Definition problem_ok (s : fh_object Pm) original x y i :=
  exists c t, nth_error (np_unique y) i = Some c /\ trained_on E (fh_params s) i original x (up_to c y) t.

Lemma trained_columns ps original x y m order ts : FH_binarize (np_unique y) y = Val m -> schedule (n_problems y) order ->
  (Forall2 (fun i t => trained_on E ps i original x (column_labels i m) t) order ts <->
   Forall2 (fun i t => exists c, nth_error (np_unique y) i = Some c /\ trained_on E ps i original x (up_to c y) t) order ts).
Proof.
  intros Hm Ho.
  assert (G : forall i, In i order -> (i < n_problems y)%nat /\ exists c, nth_error (np_unique y) i = Some c).
  { intros i Hi. apply (Permutation_in _ Ho), in_seq in Hi. split; [lia|].
    destruct (nth_error (np_unique y) i) eqn:W; [eauto|]. apply nth_error_None in W. unfold n_problems in Hi. lia. }
  clear Ho. split; intros H; revert G; induction H as [|i t order' ts' H0 H1 IH]; intros G; constructor.
  - destruct (G i (or_introl eq_refl)) as (L & c & Hc). exists c. split; [assumption|].
    now rewrite <- (column_labels_up_to y m i c Hm Hc L).
  - apply IH. intros j Hj. apply G. now right.
  - destruct (G i (or_introl eq_refl)) as (L & c & Hc). destruct H0 as (c' & Hc' & H0). assert (c' = c) by congruence. subst c'.
    now rewrite (column_labels_up_to y m i c Hm Hc L).
  - apply IH. intros j Hj. apply G. now right.
Qed.

Lemma schedule_nodup n order : schedule n order -> NoDup order.
Proof. intros H. eapply Permutation_NoDup; [apply Permutation_sym, H|apply seq_NoDup]. Qed.

Lemma Forall2_nth_error {A B : Type} (P : A -> B -> Prop) l l' : Forall2 P l l' -> forall k a, nth_error l k = Some a ->
  exists b, nth_error l' k = Some b /\ P a b.
Proof. induction 1; intros [|k] u Hu; try discriminate; cbn in *; eauto. injection Hu as <-. eauto. Qed.

Lemma Forall2_exists {A B : Type} (P : A -> B -> Prop) l : (forall a, In a l -> exists b, P a b) -> exists l', Forall2 P l l'.
Proof.
  induction l as [|a l IH]; intros H; [exists []; constructor|].
  destruct (H a (or_introl eq_refl)) as (b & Hb). destruct IH as (l' & Hl'); [intros; apply H; now right|].
  exists (b :: l'). now constructor.
Qed.

(** The exact outcome of a fit whose problems can all be trained. *)
Lemma FH_fit_ok order x y s store e original : fh_estimator s = Some e -> nth_error store e = Some original ->
  schedule (n_problems y) order -> y <> [] -> length (np_unique y) <> 2%nat -> accepted x y = true ->
  (forall i, (i < n_problems y)%nat -> problem_ok s original x y i) ->
  exists ts refs, FH_fit E accepted order x y s store =
      (store ++ ts, Build_fh_object (Some e) (fh_params s) (Some (np_unique y)) (Some (map Some refs)), Val tt) /\
    length refs = n_problems y /\ NoDup refs /\ (forall r, In r refs -> (length store <= r)%nat) /\
    forall i, (i < n_problems y)%nat -> exists c t, nth_error (np_unique y) i = Some c /\
      nth_error (store ++ ts) (nth i refs O) = Some t /\ trained_on E (fh_params s) i original x (up_to c y) t.
Proof.
  intros He Ho Hs Hy H2 Ha P. destruct (binarize_cases y H2) as (m & Hm).
  destruct (Forall2_exists (fun i t => exists c, nth_error (np_unique y) i = Some c /\ trained_on E (fh_params s) i original x (up_to c y) t) order)
    as (ts & Hts).
  { intros i Hi. apply (Permutation_in _ Hs), in_seq in Hi. destruct (P i ltac:(lia)) as (c & t & H). eauto. }
  pose proof (proj2 (trained_columns (fh_params s) original x y m order ts Hm Hs) Hts) as Hcol.
  pose proof (run_binary_ok E (fh_params s) e original x (fun i => column_labels i m) order store ts Ho Hcol) as Hrun.
  set (ans := combine order (seq (length store) (length order))) in *.
  set (refs := map (fun i => match answer_of i ans with Some r => r | None => O end) (seq 0 (n_problems y))).
  assert (Q : forall i, (i < n_problems y)%nat -> exists k, nth_error order k = Some i /\ answer_of i ans = Some (length store + k)%nat).
  { intros i Hi. apply answer_of_combine; [eapply schedule_nodup, Hs|].
    apply (Permutation_in _ (Permutation_sym Hs)), in_seq. lia. }
  exists ts, refs. split; [|split; [|split; [|split]]].
  - unfold FH_fit. rewrite He. destruct y as [|y0 y']; [easy|]. cbv beta iota. rewrite Hm, Ha. cbn [fh_params fh_estimator fh_classes].
    rewrite Hrun. change (length (np_unique (y0 :: y')) - 1)%nat with (n_problems (y0 :: y')).
    assert (W : map (fun i => answer_of i ans) (seq 0 (n_problems (y0 :: y'))) = map Some refs).
    { unfold refs. rewrite map_map. apply map_ext_in. intros i Hi. apply in_seq in Hi.
      destruct (Q i ltac:(lia)) as (k & _ & ->). reflexivity. }
    rewrite W. reflexivity.
  - unfold refs. now rewrite map_length, seq_length.
  - unfold refs. apply (proj2 (NoDup_nth _ O)). intros i j Hi Hj. rewrite map_length, seq_length in Hi, Hj.
    assert (W : forall i, (i < n_problems y)%nat -> nth i (map (fun i => match answer_of i ans with Some r => r | None => O end) (seq 0 (n_problems y))) O
       = match answer_of i ans with Some r => r | None => O end).
    { intros k Hk. rewrite (nth_indep _ O ((fun i => match answer_of i ans with Some r => r | None => O end) O)) by (rewrite map_length, seq_length; lia).
      rewrite (map_nth (fun i => match answer_of i ans with Some r => r | None => O end)), seq_nth by lia. reflexivity. }
    rewrite !W by assumption. destruct (Q i Hi) as (k & Hk & ->), (Q j Hj) as (k' & Hk' & ->).
    intros Heq. assert (k = k') by lia. subst k'. congruence.
  - intros r Hr. unfold refs in Hr. apply in_map_iff in Hr. destruct Hr as (i & <- & Hi). apply in_seq in Hi.
    destruct (Q i ltac:(lia)) as (k & _ & ->). lia.
  - intros i Hi. destruct (Q i Hi) as (k & Hk & Hans).
    destruct (Forall2_nth_error _ _ _ Hts _ _ Hk) as (t & Ht & c & Hc & Htr). exists c, t.
    split; [assumption|]. split; [|assumption].
    unfold refs. rewrite (nth_indep _ O ((fun i => match answer_of i ans with Some r => r | None => O end) O)) by (rewrite map_length, seq_length; lia).
    rewrite (map_nth (fun i => match answer_of i ans with Some r => r | None => O end)), seq_nth by lia. cbn [plus]. rewrite Hans.
    rewrite nth_error_app2 by lia. now rewrite Nat.add_comm, Nat.add_sub.
Qed.

(** And of one where something is missing. *)
Lemma FH_fit_cases order x y s store e original : fh_estimator s = Some e -> nth_error store e = Some original ->
  schedule (n_problems y) order -> y <> [] -> length (np_unique y) <> 2%nat -> accepted x y = true ->
  (forall i, (i < n_problems y)%nat -> problem_ok s original x y i) \/
  ((exists more r, FH_fit E accepted order x y s store =
    (store ++ more, Build_fh_object (Some e) (fh_params s) (Some (np_unique y)) (Some (repeat None (n_problems y))), r) /\ raises r) /\
   exists i, (i < n_problems y)%nat /\ ~ problem_ok s original x y i).
Proof.
  intros He Ho Hs Hy H2 Ha. destruct (binarize_cases y H2) as (m & Hm).
  destruct (run_binary_cases E (fh_params s) e original x (fun i => column_labels i m) order store Ho)
    as [(ts & H)|((more & r & Hr & Hn) & i & Hi & Hf)].
  - left. apply (trained_columns _ _ _ _ _ _ _ Hm Hs) in H. intros i Hi.
    assert (I : In i order) by (apply (Permutation_in _ (Permutation_sym Hs)), in_seq; lia).
    apply In_nth_error in I. destruct I as (k & Hk). destruct (Forall2_nth_error _ _ _ H _ _ Hk) as (t & _ & c & Hc & Ht).
    exists c, t. auto.
  - right. apply (Permutation_in _ Hs), in_seq in Hi. split.
    + exists more, (match r with Val _ => NotANumber | Err er => Err er | NotANumber => NotANumber end).
      unfold FH_fit. rewrite He. destruct y as [|y0 y']; [easy|]. cbv beta iota. rewrite Hm, Ha. cbn [fh_params fh_estimator fh_classes].
      rewrite Hr. destruct r; [exfalso; eapply raises_not_val, Hn|auto..].
    + exists i. split; [lia|]. intros (c & t & Hc & Ht). apply (Hf t). now rewrite (column_labels_up_to y m i c Hm Hc) by lia.
Qed.

Lemma FH_fit_early order x y s store :
  (fh_estimator s = None \/ y = [] \/ length (np_unique y) = 2%nat ->
   exists er, FH_fit E accepted order x y s store = (store, s, Err er)) /\
  (fh_estimator s <> None -> y <> [] -> length (np_unique y) <> 2%nat -> accepted x y = false ->
   FH_fit E accepted order x y s store =
     (store, Build_fh_object (fh_estimator s) (fh_params s) (Some (np_unique y)) (fh_estimators s), Err ValueError)).
Proof.
  unfold FH_fit. split.
  - destruct (fh_estimator s) as [e|]; [|eauto]. destruct y as [|y0 y']; [eauto|].
    intros [H|[H|H]]; [discriminate|discriminate|]. rewrite FH_binarize_two by assumption. eauto.
  - intros He Hy H2 Ha. destruct (fh_estimator s) as [e|]; [|easy]. destruct y as [|y0 y']; [easy|].
    destruct (binarize_cases _ H2) as (m & ->). now rewrite Ha.
Qed.

Lemma FH_fit_inv order x y s store store' s' : FH_fit E accepted order x y s store = (store', s', Val tt) ->
  fh_estimator s <> None /\ y <> [] /\ length (np_unique y) <> 2%nat /\ accepted x y = true.
Proof.
  intros H. destruct (FH_fit_early order x y s store) as (H1 & H2).
  assert (A : forall P : Prop, (fh_estimator s = None \/ y = [] \/ length (np_unique y) = 2%nat) -> P).
  { intros P W. destruct (H1 W) as (er & Q). rewrite Q in H. discriminate. }
  assert (fh_estimator s <> None) by (intros W; apply (A False); auto).
  assert (y <> []) by (intros W; apply (A False); auto).
  assert (length (np_unique y) <> 2%nat) by (intros W; apply (A False); auto).
  repeat split; auto. destruct (accepted x y) eqn:Ha; [reflexivity|].
  rewrite H2 in H by auto. discriminate.
Qed.

Theorem FH_fit_result order x y s store store' s' e original : fh_estimator s = Some e -> nth_error store e = Some original ->
  schedule (n_problems y) order -> FH_fit E accepted order x y s store = (store', s', Val tt) ->
  exists more refs, store' = store ++ more /\
    fh_estimator s' = Some e /\ fh_params s' = fh_params s /\
    fh_classes s' = Some (np_unique y) /\ fh_estimators s' = Some (map Some refs) /\
    length refs = n_problems y /\ NoDup refs /\ (forall r, In r refs -> (length store <= r)%nat) /\
    forall i c, (i < n_problems y)%nat -> nth_error (np_unique y) i = Some c ->
      exists t, nth_error store' (nth i refs O) = Some t /\ trained_on E (fh_params s) i original x (up_to c y) t.
Proof.
  intros He Ho Hs H. destruct (FH_fit_inv _ _ _ _ _ _ _ H) as (_ & Hy & H2 & Ha).
  destruct (FH_fit_cases order x y s store e original He Ho Hs Hy H2 Ha) as [P|((more & r & Hr & Hn) & _)].
  - destruct (FH_fit_ok order x y s store e original He Ho Hs Hy H2 Ha P) as (ts & refs & Hf & L & N & G & T).
    rewrite Hf in H. injection H as <- <-. exists ts, refs. cbn. repeat split; auto.
    intros i c Hi Hc. destruct (T i Hi) as (c' & t & Hc' & Hn & Ht). assert (c' = c) by congruence. subst c'. eauto.
  - rewrite Hr in H. injection H as _ _ ->. exfalso. eapply raises_not_val, Hn.
Qed.

Theorem FH_fit_when order x y s store e original : fh_estimator s = Some e -> nth_error store e = Some original ->
  schedule (n_problems y) order ->
  ((exists store' s', FH_fit E accepted order x y s store = (store', s', Val tt)) <->
   y <> [] /\ length (np_unique y) <> 2%nat /\ accepted x y = true /\
   forall i c, (i < n_problems y)%nat -> nth_error (np_unique y) i = Some c ->
     exists t, trained_on E (fh_params s) i original x (up_to c y) t).
Proof.
  intros He Ho Hs. split.
  - intros (store' & s' & H). destruct (FH_fit_inv _ _ _ _ _ _ _ H) as (_ & Hy & H2 & Ha). repeat split; auto.
    destruct (FH_fit_result _ _ _ _ _ _ _ _ _ He Ho Hs H) as (more & refs & _ & _ & _ & _ & _ & _ & _ & _ & T).
    intros i c Hi Hc. destruct (T i c Hi Hc) as (t & _ & Ht). eauto.
  - intros (Hy & H2 & Ha & T). destruct (FH_fit_ok order x y s store e original He Ho Hs Hy H2 Ha) as (ts & refs & Hf & _); [|eauto].
    intros i Hi. destruct (nth_error (np_unique y) i) as [c|] eqn:Hc.
    + destruct (T i c Hi Hc) as (t & Ht). exists c, t. auto.
    + apply nth_error_None in Hc. unfold n_problems in Hi. lia.
Qed.

(** ** Predictions only look at the objects of estimators_ *)
Lemma left_column_ext store1 store2 refs1 refs2 x i :
  match nth_error refs1 i with Some r => nth_error store1 r | None => None end =
  match nth_error refs2 i with Some r => nth_error store2 r | None => None end ->
  (nth_error refs1 i = None <-> nth_error refs2 i = None) ->
  left_column E store1 (map Some refs1) x i = left_column E store2 (map Some refs2) x i.
Proof.
  intros H W. unfold left_column. rewrite !nth_error_map.
  destruct (nth_error refs1 i), (nth_error refs2 i); cbn.
  - now rewrite H.
  - destruct W as [_ W]. discriminate (W eq_refl).
  - destruct W as [W _]. discriminate (W eq_refl).
  - reflexivity.
Qed.

Lemma FH_proba_ext store1 store2 s1 s2 refs1 refs2 : fh_classes s1 = fh_classes s2 ->
  fh_estimators s1 = Some (map Some refs1) -> fh_estimators s2 = Some (map Some refs2) -> length refs1 = length refs2 ->
  (forall i, (i < length refs1)%nat -> nth_error store1 (nth i refs1 O) = nth_error store2 (nth i refs2 O)) ->
  forall x, FH_object_proba E store1 s1 x = FH_object_proba E store2 s2 x /\
            FH_object_predict E store1 s1 x = FH_object_predict E store2 s2 x.
Proof.
  intros Hc H1 H2 L N x.
  assert (C : forall i, left_column E store1 (map Some refs1) x i = left_column E store2 (map Some refs2) x i).
  { intros i. apply left_column_ext.
    - destruct (le_lt_dec (length refs1) i) as [G|G].
      + rewrite (proj2 (nth_error_None refs1 i)), (proj2 (nth_error_None refs2 i)) by lia. reflexivity.
      + rewrite (nth_error_nth' refs1 O), (nth_error_nth' refs2 O) by lia. auto.
    - rewrite !nth_error_None, L. reflexivity. }
  assert (B : FH_object_proba E store1 s1 x = FH_object_proba E store2 s2 x).
  { unfold FH_object_proba, FH_binary_proba. rewrite <- Hc, H1, H2. destruct (fh_classes s1) as [cl|]; [|reflexivity].
    rewrite C. do 2 f_equal. rewrite (map_ext _ _ C). reflexivity. }
  split; [exact B|]. unfold FH_object_predict. rewrite <- Hc. destruct (fh_classes s1); [|reflexivity]. now rewrite B.
Qed.

Theorem FH_fit_determined order1 order2 x y s1 s2 store1 store2 e1 e2 original :
  fh_estimator s1 = Some e1 -> fh_estimator s2 = Some e2 -> fh_params s1 = fh_params s2 ->
  nth_error store1 e1 = Some original -> nth_error store2 e2 = Some original ->
  schedule (n_problems y) order1 -> schedule (n_problems y) order2 ->
  forall store1' s1', FH_fit E accepted order1 x y s1 store1 = (store1', s1', Val tt) ->
  exists store2' s2', FH_fit E accepted order2 x y s2 store2 = (store2', s2', Val tt) /\
    forall t, FH_object_proba E store1' s1' t = FH_object_proba E store2' s2' t /\
              FH_object_predict E store1' s1' t = FH_object_predict E store2' s2' t.
Proof.
  intros He1 He2 Hp Ho1 Ho2 Hs1 Hs2 store1' s1' H.
  assert (W : exists store2' s2', FH_fit E accepted order2 x y s2 store2 = (store2', s2', Val tt)).
  { apply (FH_fit_when order2 x y s2 store2 e2 original He2 Ho2 Hs2).
    rewrite <- Hp. apply (FH_fit_when order1 x y s1 store1 e1 original He1 Ho1 Hs1). eauto. }
  destruct W as (store2' & s2' & H'). exists store2', s2'. split; [exact H'|].
  destruct (FH_fit_result _ _ _ _ _ _ _ _ _ He1 Ho1 Hs1 H) as (m1 & r1 & _ & _ & _ & C1 & R1 & L1 & _ & _ & T1).
  destruct (FH_fit_result _ _ _ _ _ _ _ _ _ He2 Ho2 Hs2 H') as (m2 & r2 & _ & _ & _ & C2 & R2 & L2 & _ & _ & T2).
  apply FH_proba_ext with (refs1 := r1) (refs2 := r2); auto; [congruence|lia|].
  intros i Hi. rewrite L1 in Hi. destruct (nth_error (np_unique y) i) as [c|] eqn:Hc.
  - destruct (T1 i c Hi Hc) as (t1 & -> & Q1), (T2 i c Hi Hc) as (t2 & -> & Q2). f_equal.
    rewrite <- Hp in Q2. eapply trained_on_fun; eassumption.
  - apply nth_error_None in Hc. unfold n_problems in Hi. lia.
Qed.

(** A fit never changes an object that was there before. *)
Lemma run_binary_extends ps e x yb order : forall store store' r,
  run_jobs (fun i => fit_binary E e ps x (yb i) i) order store = (store', r) -> exists more, store' = store ++ more.
Proof.
  induction order as [|i order IH]; intros store store' r; cbn [run_jobs].
  - intros [= <- <-]. exists []. now rewrite app_nil_r.
  - destruct (nth_error store e) as [original|] eqn:He.
    + destruct (fit_binary_cases E ps e original x (yb i) i store He) as [(t & Ht)|(t & r' & Hr & Hn)].
      * rewrite (fit_binary_ok E ps e original x (yb i) i store t He Ht).
        destruct (run_jobs _ order (store ++ [t])) as [st r'] eqn:Hj. intros [= <- <-].
        destruct (IH _ _ _ Hj) as (more & ->). exists (t :: more). now rewrite <- app_assoc.
      * rewrite Hr. destruct r'; [exfalso; eapply raises_not_val, Hn|intros [= <- <-]; eauto..].
    + unfold fit_binary at 1. rewrite He. intros [= <- <-]. exists []. now rewrite app_nil_r.
Qed.

Theorem FH_fit_extends order x y s store store' s' r : FH_fit E accepted order x y s store = (store', s', r) ->
  exists more, store' = store ++ more.
Proof.
  assert (Z0 : exists more, store = store ++ more) by (exists []; now rewrite app_nil_r).
  unfold FH_fit. destruct (fh_estimator s) as [e|]; [|now intros [= <- <- <-]].
  destruct y as [|y0 y']; [now intros [= <- <- <-]|].
  destruct (FH_binarize _ _) as [m|er|]; [|now intros [= <- <- <-]..].
  destruct (accepted _ _); [|now intros [= <- <- <-]].
  destruct (run_jobs _ order store) as [st res] eqn:Hj. apply run_binary_extends in Hj.
  destruct res; now intros [= <- <- <-].
Qed.

(** Predictions do not change when other objects are added or the user's estimator is. *)
Theorem FH_fit_private order x y s store store' s' e original other : fh_estimator s = Some e -> nth_error store e = Some original ->
  schedule (n_problems y) order -> FH_fit E accepted order x y s store = (store', s', Val tt) ->
  (forall r, (length store <= r < length store')%nat -> nth_error other r = nth_error store' r) ->
  forall t, FH_object_proba E other s' t = FH_object_proba E store' s' t /\
            FH_object_predict E other s' t = FH_object_predict E store' s' t.
Proof.
  intros He Ho Hs H G. destruct (FH_fit_result _ _ _ _ _ _ _ _ _ He Ho Hs H) as (more & refs & _ & _ & _ & C & R & L & _ & B & T).
  apply FH_proba_ext with (refs1 := refs) (refs2 := refs); auto. intros i Hi.
  apply G. split; [apply B, nth_In, Hi|]. apply nth_error_Some. rewrite L in Hi.
  destruct (nth_error (np_unique y) i) as [c|] eqn:Hc.
  - destruct (T i c Hi Hc) as (u & -> & _). discriminate.
  - apply nth_error_None in Hc. unfold n_problems in Hi. lia.
Qed.

(** ** Fits that raise *)
Lemma none_raises store s x : fh_estimators s = None \/ (exists n, fh_estimators s = Some (repeat None n)) ->
  raises (FH_object_proba E store s x) /\ raises (FH_object_predict E store s x).
Proof.
  intros H. assert (B : raises (FH_binary_proba E store s x)).
  { unfold FH_binary_proba. destruct (fh_classes s) as [cl|]; [|auto].
    destruct H as [->|(n & ->)]; [auto|]. unfold left_column at 1. destruct n; cbn; auto. }
  assert (P : raises (FH_object_proba E store s x)).
  { unfold FH_object_proba. destruct (FH_binary_proba E store s x); cbn; auto. exfalso. eapply raises_not_val, B. }
  split; [exact P|]. unfold FH_object_predict. destruct (fh_classes s) as [cl|]; [|auto].
  destruct (FH_object_proba E store s x); cbn; auto. exfalso. eapply raises_not_val, P.
Qed.

Lemma FH_fit_raised order x y s store store' s' r : FH_fit E accepted order x y s store = (store', s', r) -> raises r ->
  s' = s \/ fh_estimators s' = fh_estimators s \/ exists n, fh_estimators s' = Some (repeat None n).
Proof.
  unfold FH_fit. destruct (fh_estimator s) as [e|]; [|intros [= <- <- <-]; auto].
  destruct y as [|y0 y']; [intros [= <- <- <-]; auto|].
  destruct (FH_binarize _ _) as [m|er|]; [|intros [= <- <- <-]; auto..].
  destruct (accepted _ _); [|intros [= <- <- <-]; cbn; auto].
  destruct (run_jobs _ order store) as [st res]. destruct res; intros [= <- <- <-] Hn; cbn; eauto.
  exfalso. eapply raises_not_val, Hn.
Qed.

Theorem FH_only_failed s store x : only_failed_fits E accepted s ->
  raises (FH_object_proba E store s x) /\ raises (FH_object_predict E store s x).
Proof.
  intros H. apply none_raises. induction H as [|s order x0 y st st' s' r H IH Hf Hr]; [now left|].
  destruct (FH_fit_raised _ _ _ _ _ _ _ _ Hf Hr) as [->|[->|(n & ->)]]; eauto.
Qed.

Theorem FH_failed_refit order x y s store store' s' r : FH_fit E accepted order x y s store = (store', s', r) -> raises r ->
  (fh_estimator s = None \/ y = [] \/ length (np_unique y) = 2%nat -> s' = s) /\
  (fh_estimator s <> None -> y <> [] -> length (np_unique y) <> 2%nat -> accepted x y = false ->
   s' = Build_fh_object (fh_estimator s) (fh_params s) (Some (np_unique y)) (fh_estimators s)) /\
  (fh_estimator s <> None -> y <> [] -> length (np_unique y) <> 2%nat -> accepted x y = true ->
   forall st t, raises (FH_object_proba E st s' t) /\ raises (FH_object_predict E st s' t)).
Proof.
  intros H Hr. destruct (FH_fit_early order x y s store) as (H1 & H2). repeat split.
  - intros W. destruct (H1 W) as (er & Q). congruence.
  - intros A B C D. rewrite (H2 A B C D) in H. congruence.
  - apply none_raises. right. unfold FH_fit in H. destruct (fh_estimator s) as [e|]; [|easy]. destruct y as [|y0 y']; [easy|].
    destruct (binarize_cases _ H4) as (m & Hm). rewrite Hm, H5 in H. destruct (run_jobs _ order store) as [st' res].
    destruct res; injection H as <- <- <-; cbn; eauto. exfalso. eapply raises_not_val, Hr.
  - apply none_raises. right. unfold FH_fit in H. destruct (fh_estimator s) as [e|]; [|easy]. destruct y as [|y0 y']; [easy|].
    destruct (binarize_cases _ H4) as (m & Hm). rewrite Hm, H5 in H. destruct (run_jobs _ order store) as [st' res].
    destruct res; injection H as <- <- <-; cbn; eauto. exfalso. eapply raises_not_val, Hr.
Qed.
End Fit.
